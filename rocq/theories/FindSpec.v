(** Vocabulary of the properties of finding WAL segments. *)
From Coq Require Import Permutation.
From Verif Require Import Base Str EncodeSpec LsnSpec PushSpec.
Open Scope Z_scope.

(** A file of the archive for the segment: its name, a dash, 40 characters, and perhaps an extension *)
Definition fileOf (seg name : str) : Prop := exists sum, sum40 sum /\ segmentFile seg sum name.
(** The directory has no file for the segment *)
Definition noFile (d : list str) (seg : str) : Prop := forall x, In x d -> ~ fileOf seg x.
(** The file is the only one of the directory *)
Definition oneFile (d : list str) (seg name : str) : Prop := fileOf seg name /\ In name d /\ forall x, In x d -> fileOf seg x -> x = name.
(** The directory has two entries for the segment *)
Definition twoFiles (d : list str) (seg : str) : Prop := exists a b r, Permutation d (a :: b :: r) /\ fileOf seg a /\ fileOf seg b.
(** There is nothing else (as a temporary file) with a name that begins with the segment and a dash *)
Definition clean (d : list str) (seg : str) : Prop := forall x r, In x d -> x = seg ++ 45 :: r -> fileOf seg x.
