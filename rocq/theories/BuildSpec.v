(** What a backup takes from the data directory, stated on what is in storage. *)
From Coq Require Import String.
From Verif Require Import Base Str NumModel ManifestPackModel ManifestModel RegNameModel RegSpec LinkCheckModel SelectSpec UnloggedSpec BuildModel.
Open Scope Z_scope.
Open Scope list_scope.

Definition begins (s p : str) : Prop := exists r, s = p ++ r.
Definition ends (s p : str) : Prop := exists r, s = r ++ p.
Definition slash (a b : str) : str := a ++ txt "/" ++ b.
Definition sData : str := txt "pg_data".
Definition sSpc : str := txt "pg_tblspc".

(** A place in storage: the name of its parent in the manifest, the path of its parent, whether that has relations, and what is there *)
Record node := mkNode { nParent : str; nPath : str; nDb : bool; nInfo : binfo }.
Definition nName (n : node) : str := slash (nParent n) (biName (nInfo n)).
Definition isWal (o : bopts) (p : str) : Prop := p = slash sData (if 100000 <=? boVersion o then txt "pg_wal" else txt "pg_xlog").

(** Not looked at: temp files of the server, and what is excluded *)
Definition hidden (o : bopts) (n : node) : Prop := begins (biName (nInfo n)) (txt "pgsql_tmp") \/ In (nName n) (boSingle o).
(** Paths whose contents are not looked at *)
Definition emptied (o : bopts) (n : node) : Prop :=
  In (nName n) (boContent o) \/
  (nParent n = sData /\ In (biName (nInfo n)) (map txt ["pg_dynshmem"; "pg_notify"; "pg_replslot"; "pg_serial"; "pg_snapshots"; "pg_stat_tmp"; "pg_subtrans"]%string)) \/
  (boOnline o = true /\ isWal o (nParent n) /\ biName (nInfo n) = txt "archive_status").
(** Files of the data directory that belong to the running server or a former recovery or backup *)
Definition ofServer (v : Z) (name : str) : Prop :=
  In name (map txt ["postgresql.auto.conf.tmp"; "backup_label"; "backup_label.old"; "postmaster.opts"; "postmaster.pid"]%string) \/
  (v < 120000 /\ In name (map txt ["recovery.conf"; "recovery.done"]%string)) \/
  (120000 <= v /\ In name (map txt ["recovery.signal"; "standby.signal"]%string)) \/
  (130000 <= v /\ In name (map txt ["backup_manifest"; "backup_manifest.tmp"]%string)).
(** The cache of relations, with something that has a dot and a digit after it or nothing *)
Definition relCache (name : str) : Prop :=
  exists r, name = txt "pg_internal.init" ++ r /\ (r = [] \/ exists a c b, r = a ++ txt "." ++ c :: b /\ 48 <= c <= 57).
Definition leftOut (o : bopts) (n : node) : Prop :=
  (nDb n = true /\ (relCache (biName (nInfo n)) \/ tempRelation (biName (nInfo n)))) \/
  (nParent n = sData /\ ofServer (boVersion o) (biName (nInfo n))) \/ (boOnline o = true /\ isWal o (nParent n)).

Definition ofType (t : btype) (n : node) : Prop := biType (nInfo n) = t.
Definition inSpc (n : node) : Prop := nParent n = slash sData sSpc.
(** A link that is looked at, of a tablespace or not *)
Definition linkNode (o : bopts) (n : node) : Prop := ofType BLink n /\ ~ hidden o n.
Definition spcNode (o : bopts) (n : node) : Prop := linkNode o n /\ inSpc n.
(** The path a link is followed at *)
Definition linkPath (o : bopts) (n : node) (p : str) : Prop :=
  (inSpc n /\ p = slash (slash (nPath n) (biName (nInfo n))) (boTid o)) \/ (~ inSpc n /\ p = slash (nPath n) (biName (nInfo n))).

(** From a place to the next *)
Inductive step (w : bworld) (o : bopts) (n : node) : node -> Prop :=
| StepPath b j : ofType BPath n -> ~ hidden o n -> ~ emptied o n -> In j (bwList w (slash (nPath n) (biName (nInfo n)))) -> (b = true <-> isDbPath (boTid o) (nName n)) ->
    step w o n (mkNode (nName n) (slash (nPath n) (biName (nInfo n))) b j)
| StepLink j : linkNode o n -> ~ inSpc n -> bwFollow w (slash (nPath n) (biName (nInfo n))) = Some j ->
    step w o n (mkNode (nParent n) (nPath n) (nDb n) (mkBinfo (biName (nInfo n)) (biType j) (biMode j) (biUser j) (biGroup j) (biSize j) (biTime j) (biDest j)))
| StepSpc j : spcNode o n -> bwFollow w (slash (slash (nPath n) (biName (nInfo n))) (boTid o)) = Some j ->
    step w o n (mkNode (slash sSpc (biName (nInfo n))) (slash (nPath n) (biName (nInfo n))) (nDb n)
      (mkBinfo (boTid o) (biType j) (biMode j) (biUser j) (biGroup j) (biSize j) (biTime j) (biDest j))).
Inductive below (w : bworld) (o : bopts) : node -> node -> Prop :=
| BelowHere n : below w o n n
| BelowNext a b c : step w o a b -> below w o b c -> below w o a c.
(** All places that are looked at *)
Definition reach (w : bworld) (o : bopts) (pg : str) (n : node) : Prop := exists i, In i (bwList w pg) /\ below w o (mkNode sData pg false i) n.

(** The first threshold of the map that is reached *)
Definition reached (map : list (Z * Z)) (x v : Z) : Prop := exists a t b, map = a ++ (t, v) :: b /\ t <= x /\ Forall (fun p => x < fst p) a.
Definition noneReached (map : list (Z * Z)) (x : Z) : Prop := Forall (fun p => x < fst p) map.
Definition blockSize (o : bopts) (i : binfo) (b : Z) : Prop :=
  (noneReached (boSizeMap o) (biSize i) /\ b = 0) \/
  exists s, reached (boSizeMap o) (biSize i) s /\
    ((s = 0 /\ b = 0) \/ (s <> 0 /\ noneReached (boAgeMap o) (boStart o - biTime i) /\ b = s) \/ (s <> 0 /\ exists a, reached (boAgeMap o) (boStart o - biTime i) a /\ b = s * a)).
Definition checksumSize (o : bopts) (b c : Z) : Prop := (noneReached (boChecksumMap o) b /\ c = 6) \/ reached (boChecksumMap o) b c.
(** The file of the manifest for a file of storage *)
Definition fileNode (o : bopts) (n : node) (f : bfile) : Prop :=
  ofType BFile n /\ ~ hidden o n /\ ~ leftOut o n /\
  bfName f = nName n /\ bfMode f = biMode (nInfo n) /\ bfUser f = biUser (nInfo n) /\ bfGroup f = biGroup (nInfo n) /\ bfSize f = biSize (nInfo n) /\ bfTime f = biTime (nInfo n) /\
  (bfCopy f = false <-> biSize (nInfo n) = 0 /\ boBundle o = true) /\ bfZero f = negb (bfCopy f) /\
  (biSize (nInfo n) <> 0 /\ boBlockIncr o = true -> blockSize o (nInfo n) (bfBlock f) /\ checksumSize o (bfBlock f) (bfBlockChecksum f)) /\
  (~ (biSize (nInfo n) <> 0 /\ boBlockIncr o = true) -> bfBlock f = 0 /\ bfBlockChecksum f = 0) /\
  (bfChecksumPage f = true <-> nDb n = true /\ boChecksumPage o = true /\ ~ ends (nName n) (txt "/pg_filenode.map") /\ ~ ends (nName n) (txt "/PG_VERSION") /\
     nName n <> txt "pg_data/global/pg_control").
Definition pathNode (o : bopts) (n : node) (p : mpath) : Prop :=
  ofType BPath n /\ ~ hidden o n /\ p = mkMpath (nName n) (biMode (nInfo n)) (biUser (nInfo n)) (biGroup (nInfo n)).
Definition mlinkNode (o : bopts) (n : node) (k : mlink) : Prop :=
  linkNode o n /\ k = mkMlink (nName n) (biDest (nInfo n)) (biUser (nInfo n)) (biGroup (nInfo n)).
(** The name of a tablespace: from the database, or made from its id *)
Definition spcName (o : bopts) (n : node) (id : Z) (name : str) : Prop :=
  match boTs o with
  | None => name = txt "ts" ++ biName (nInfo n)
  | Some l => exists a b, l = a ++ (id, name) :: b /\ Forall (fun x => fst x <> id) b
  end.
Definition targetNode (w : bworld) (o : bopts) (n : node) (t : mtarget) : Prop :=
  linkNode o n /\ mtIsPath t = false /\
  ((inSpc n /\ mtName t = slash sSpc (biName (nInfo n)) /\ cvtZToUInt 10 (biName (nInfo n)) = Ok (mtTablespaceId t) /\ exists s, mtTablespaceName t = Some s /\ spcName o n (mtTablespaceId t) s) \/
   (~ inSpc n /\ mtName t = nName n /\ mtTablespaceId t = 0 /\ mtTablespaceName t = None)) /\
  exists p j, linkPath o n p /\ bwFollow w p = Some j /\
    ((biType j = BPath /\ mtPath t = biDest (nInfo n) /\ mtFile t = None) \/
     (biType j <> BPath /\ mtPath t = strPath (biDest (nInfo n)) /\ mtFile t = Some (strBase (biDest (nInfo n))))).
(** Paths made for tablespaces: one for all, and one for each, with the owner and mode of others *)
Definition like (p : mpath) (name : str) : mpath := mkMpath name (mpMode p) (mpUser p) (mpGroup p).
Definition spcPath (all : list mpath) (n : node) (p : mpath) : Prop := exists t, In t all /\ mpName t = slash sData sSpc /\ p = like t (slash sSpc (biName (nInfo n))).

(** What makes the build fail *)
Inductive bad (w : bworld) (o : bopts) (n : node) : errkind -> Prop :=
| BadSpc : (ofType BPath n \/ ofType BFile n) -> ~ hidden o n -> inSpc n -> bad w o n EOptionInvalidValue
| BadDest e : linkNode o n -> strPathAbsolute (biDest (nInfo n)) (nPath n) = Err e -> bad w o n e
| BadLinkToLink p j : linkNode o n -> strPathAbsolute (biDest (nInfo n)) (nPath n) = Ok p -> bwInfo w p = Some j -> biType j = BLink -> bad w o n EOther
| BadId e : spcNode o n -> cvtZToUInt 10 (biName (nInfo n)) = Err e -> bad w o n e
| BadName id l : spcNode o n -> cvtZToUInt 10 (biName (nInfo n)) = Ok id -> boTs o = Some l -> (forall s, ~ In (id, s) l) -> bad w o n EAssert
| BadSpcFile id p j : spcNode o n -> cvtZToUInt 10 (biName (nInfo n)) = Ok id -> id <> 0 -> linkPath o n p -> bwFollow w p = Some j -> biType j <> BPath -> bad w o n EFormat
| BadMissing p : linkNode o n -> linkPath o n p -> bwFollow w p = None -> bad w o n EFileOpen.
(** The check of destinations fails at a link *)
Definition checkFails (o : bopts) (n : node) (e : errkind) : Prop :=
  linkNode o n /\ exists ts c t, manifestLinkCheckOne ts c t = Err e /\ (mtPath t = biDest (nInfo n) \/ mtPath t = strPath (biDest (nInfo n))).
