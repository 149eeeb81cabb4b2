(** Vocabulary of the archive-get properties. *)
From Verif Require Import Base Str SpoolModel PushModel PushSpec LsnSpec GetModel.
Open Scope Z_scope.

(** Repository [r] offers for segment [f], in archive id [a], the file [name] with checksum [sum]. *)
Definition offers (w : repos) (cr : list crepo) (f : str) (r : nat) (a name sum : str) : Prop :=
  (exists c, In c cr /\ crIdx c = r /\ In a (crArchives c)) /\ (exists d, In (name, d) (w r a)) /\ sum40 sum /\ segmentFile f sum name.
(** All archive ids have [k] characters. *)
Definition idLength (cr : list crepo) (k : nat) : Prop := forall c a, In c cr -> In a (crArchives c) -> length a = k.

(** Segment [x] is one of the [n] segments from the one that holds byte [b] on. *)
Definition oneOf (tl size b n : Z) (x : str) : Prop := exists i, 0 <= i < n /\ segmentIs tl size (b + i * size) x.

(** Archive id [a] of repository [r] is for the cluster: archive.info lists it with this version and system id and it is either current or has
    a directory. *)
Definition serves (version systemId : Z) (only : option nat) (infos : list repoInfo) (r : nat) (a : str) : Prop :=
  (only = None \/ only = Some r) /\ exists h l p i, nth_error infos r = Some h /\ riInfo h = Ok l /\ riPaths h = Ok p /\ nth_error l i = Some (a, version, systemId) /\ (i = O \/ In a p).
(** A file that repository [r] has for segment [f]. *)
Definition has (w : repos) (r : nat) (a f name sum : str) : Prop := (exists d, In (name, d) (w r a)) /\ sum40 sum /\ segmentFile f sum name.

(** [e] is [d] with files removed. *)
Definition less (e d : dir) : Prop := forall f c, dirGet e f = Some c -> dirGet d f = Some c.
(** The spool directory seen by iteration [i] when the loop started at iteration [n] with [d0] and itself only removes files.  [e] is the
    directory the iteration before left. *)
Inductive sees (other : nat -> dir -> dir) (n : nat) (d0 : dir) : nat -> dir -> dir -> Prop :=
| sees_first : sees other n d0 n d0 (other n d0)
| sees_next i e d e' : sees other n d0 i e d -> less e' d -> sees other n d0 (S i) e' (other (S i) e').

(** Number of segments of the queue: at least two, else as many as fit the configured size.  The quotient is cut to 32 bits. *)
Definition queueCount (queueSize size : Z) : Z := Z.max 2 ((queueSize / size) mod 2 ^ 32).
(** [x] is the file of segment [q] in the spool, or its ok or error file. *)
Definition touches (q x : str) : Prop := x = q \/ x = q ++ [46;111;107] \/ x = q ++ [46;101;114;114;111;114].
