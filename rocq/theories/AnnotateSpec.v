(** What annotating does. *)
From Verif Require Import Base Str ExpireModel AnnotateModel.
Open Scope Z_scope.

Definition kvs (o : option annots) : annots := match o with None => [] | Some kv => kv end.
(** The annotations wanted: with a new value the new one, with an empty new value none, else the old one. *)
Definition wanted (old new : annots) (k v : str) : Prop :=
  (In (k, v) new /\ v <> []) \/ (~ In k (map fst new) /\ In (k, v) old).
(** The backup is the same but for its annotations, and these are as wanted; there is no empty list of them. *)
Definition annotated (new : annots) (e e2 : entry) : Prop :=
  nLabel e2 = nLabel e /\ nRest e2 = nRest e /\ (forall k v, In (k, v) (kvs (nAnnot e2)) <-> wanted (kvs (nAnnot e)) new k v) /\ NoDup (map fst (kvs (nAnnot e2))) /\ nAnnot e2 <> Some [].
(** The backups of a repository with the one with the label annotated *)
Definition infoAnnotated (label : str) (new : annots) (l l2 : list entry) : Prop :=
  exists before e e2 after, l = before ++ e :: after /\ nLabel e = label /\ ~ In label (map nLabel before) /\ annotated new e e2 /\ l2 = before ++ e2 :: after.
