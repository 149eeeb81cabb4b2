(** Files of relations, stated on names. *)
From Coq Require Import String.
From Verif Require Import Base Str RegNameModel RegSpec SelectSpec.
Open Scope Z_scope.
Open Scope list_scope.

(** The path of a database, or of shared relations *)
Definition isDbPath (tid p : str) : Prop :=
  p = txt "pg_data/global" \/ (exists d, isId d /\ p = txt "pg_data/base/" ++ d) \/
  exists o t d, isId o /\ fits tid t /\ isId d /\ p = txt "pg_tblspc/" ++ o ++ txt "/" ++ t ++ txt "/" ++ d.
(** What follows the id of a relation: the fork, and the number of the segment *)
Definition relationSuffix (x : str) : Prop :=
  exists fork seg, x = fork ++ seg /\ In fork [[]; txt "_fsm"; txt "_vm"] /\ (seg = [] \/ exists n, isId n /\ seg = txt "." ++ n).
(** The file is of relation [id] in path [p] *)
Definition relation (tid f p id : str) : Prop := isDbPath tid p /\ isId id /\ exists x, relationSuffix x /\ f = p ++ txt "/" ++ id ++ x.
(** A relation with an init fork is unlogged *)
Definition unlogged (files : list str) (p id : str) : Prop := In (p ++ txt "/" ++ id ++ txt "_init") files.
(** Temp relations: t, the id of a backend and an underscore before *)
Definition tempRelation (n : str) : Prop := exists b id x, isId b /\ isId id /\ relationSuffix x /\ n = txt "t" ++ b ++ txt "_" ++ id ++ x.

(** Files of relations with the same id in different paths, with no file of a relation between them, are both unlogged or both not *)
Definition noClash (tid : str) (files : list str) : Prop :=
  forall a f m f' b p p' id, files = a ++ f :: m ++ f' :: b -> relation tid f p id -> relation tid f' p' id ->
    (forall g q i, In g m -> ~ relation tid g q i) -> unlogged files p id <-> unlogged files p' id.
