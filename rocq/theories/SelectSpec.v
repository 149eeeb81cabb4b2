(** Selective restore, stated on names of files. *)
From Coq Require Import String.
From Verif Require Import Base Str NumModel NumSpec RegNameModel RegSpec ManifestPackModel ManifestModel SelectModel.
Open Scope Z_scope.
Open Scope list_scope.

(** [t] is the tablespace id [p], where any character may stand for a dot *)
Definition fits (p t : str) : Prop := Forall2 (fun a b => a = b \/ a = 46) p t.
(** An id as it is in a path *)
Definition isId (d : str) : Prop := d <> [] /\ digits d.

(** The file is the version file of database [d] *)
Definition versionFile (tid f d : str) : Prop :=
  isId d /\ exists r, ~ In 47 r /\
    (f = txt "pg_data/base/" ++ d ++ txt "/PG_VERSION" ++ r \/
     exists o t, isId o /\ fits tid t /\ f = txt "pg_tblspc/" ++ o ++ txt "/" ++ t ++ txt "/" ++ d ++ txt "/PG_VERSION" ++ r).
(** A file is below what should be the version file of a database *)
Definition belowVersionFile (tid f : str) : Prop :=
  exists d r, isId d /\ In 47 r /\
    (f = txt "pg_data/base/" ++ d ++ txt "/PG_VERSION" ++ r \/
     exists o t, isId o /\ fits tid t /\ f = txt "pg_tblspc/" ++ o ++ txt "/" ++ t ++ txt "/" ++ d ++ txt "/PG_VERSION" ++ r).
(** The file is in the directory of database [d] *)
Definition inDb (targets : list mtarget) (tid d f : str) : Prop :=
  exists r, f = txt "pg_data/base/" ++ d ++ txt "/" ++ r \/
    exists t x, In t targets /\ mtTablespaceId t <> 0 /\ fits tid x /\ f = mtName t ++ txt "/" ++ x ++ txt "/" ++ d ++ txt "/" ++ r.
Definition isVersionName (f : str) : Prop := exists p, f = p ++ txt "/PG_VERSION".

Definition systemDb (d : mdb) : Prop := In (mdName d) [txt "postgres"; txt "template0"; txt "template1"] \/ mdId d < 16384.

Section Manifest.
  Variables (dbs : list mdb) (files : list str) (tid : str).
  (** The databases and the system databases of a backup, by id *)
  Definition dbFound (d : str) : Prop :=
    (exists db, In db dbs /\ systemDb db /\ d = cvtUIntToZ (mdId db)) \/ exists f, In f files /\ versionFile tid f d.
  Definition dbSystem (d : str) : Prop :=
    (exists db, In db dbs /\ systemDb db /\ d = cvtUIntToZ (mdId db)) \/ exists f v, In f files /\ versionFile tid f d /\ digitsIs 10 d v /\ v < 16384.
  (** The value [x] of an option is for database [d]: an id that was found, or else the name of one that was *)
  Definition denotes (x d : str) : Prop :=
    dbFound x /\ d = x \/ ~ dbFound x /\ exists db, In db dbs /\ mdName db = x /\ d = cvtUIntToZ (mdId db) /\ dbFound d.

  (** What holds for the manifest of a backup *)
  Record sound (targets : list mtarget) : Prop := {
    sdIds : forall d, In d dbs -> 0 <= mdId d < 2 ^ 32;
    sdIdNoDup : NoDup (map mdId dbs);
    sdNameNoDup : NoDup (map mdName dbs);
    sdNotIds : forall d, In d dbs -> ~ dbFound (mdName d);
    sdBelow : forall f, In f files -> ~ belowVersionFile tid f;
    sdTargets : forall t, In t targets -> mtTablespaceId t <> 0 -> exists o, isId o /\ mtName t = txt "pg_tblspc/" ++ o }.
End Manifest.
