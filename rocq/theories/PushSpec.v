(** Vocabulary of the archive-push properties. *)
From Verif Require Import Base Str SpoolModel PushModel.
Open Scope Z_scope.

(** 24 characters of the range 0-F. *)
Definition seg24 (s : str) : Prop := length s = 24%nat /\ Forall (fun c => 48 <= c <= 70) s.
(** WAL segment or partial WAL segment. *)
Definition isSegmentName (f : str) : Prop := exists s, seg24 s /\ (f = s \/ f = s ++ [46;112;97;114;116;105;97;108]).

(** 40 characters of the range 0-f. *)
Definition sum40 (s : str) : Prop := length s = 40%nat /\ Forall (fun c => 48 <= c <= 102) s.
(** "", .gz, .lz4, .zst, .xz, .bz2 *)
Definition isExt (e : str) : Prop := In e [[]; [46;103;122]; [46;108;122;52]; [46;122;115;116]; [46;120;122]; [46;98;122;50]].
(** Name of a file in the archive that holds segment [f] with checksum [sum].  For partial segments the dot is not checked. *)
Definition segmentFile (f sum name : str) : Prop :=
  exists s ext, seg24 s /\ isExt ext /\
    ((f = s /\ name = s ++ 45 :: sum ++ ext) \/
     (f = s ++ [46;112;97;114;116;105;97;108] /\ exists c, name = s ++ c :: [112;97;114;116;105;97;108] ++ 45 :: sum ++ ext)).

(** Repository [r] holds a file of this name and content. *)
Definition holds (w : repos) (r : repoData) (name : str) (c : data) : Prop := In (name, c) (w (rdIdx r) (rdArchiveId r)).
(** The only file of segment [f] in repository [r] is [name]. *)
Definition onlyFile (w : repos) (r : repoData) (f name : str) : Prop :=
  NoDup (map fst (w (rdIdx r) (rdArchiveId r))) /\ (exists c, holds w r name c) /\
  forall sum n c, sum40 sum -> segmentFile f sum n -> holds w r n c -> n = name.
(** Repository [r] holds WAL file [f] (with checksum [sum] for segments). *)
Definition archived (w : repos) (r : repoData) (f sum : str) : Prop :=
  exists name c, holds w r name c /\ (isSegmentName f -> segmentFile f sum name) /\ (~ isSegmentName f -> name = f).
