(** A sequence of block incremental backups of a file. *)
From Verif Require Import Base BlockMapModel BlockMapSpec BlockIncrModel BlockIncrSpec RestoreFileSpec.
Open Scope Z_scope.

(** Where a block map is: the backup and bundle, offset and size. *)
Record mloc := mkLoc { lRef : Z; lBundle : Z; lOff : nat; lSize : nat }.

Section Chain.
  Variable hash : list Z -> list Z.
  (** The encodings may differ between backups and between calls. *)
  Variable encB encM : Z -> nat -> list Z -> list Z.
  Variable decB decM : list Z -> res (list Z).
  Variables bs cs : nat.
  (** The files of all backups *)
  Variable repo : Z -> Z -> option (list Z).

  (** The filter run of backup [r] on the content [v] ends with the output [out] and the map size [n], for some super block size, cutting
      into buffers, and emptying of the output. *)
  Definition backupRun (prior : option (list item)) (r bundle : Z) (off : nat) (v out : list Z) (n : nat) : Prop :=
    exists sbs chunks outs fl, concat chunks = v /\ (forall k, (1 <= snd (outs k))%nat) /\
      forall fuel, (fl <= fuel)%nat -> incrRun hash (encB r) (encM r) sbs bs r bundle prior fuel outs (Z.of_nat off) chunks = Ok (out, n).

  (** The map at a location *)
  Definition mapAt (l : mloc) (m : list item) : Prop :=
    exists f d b t, repo (lRef l) (lBundle l) = Some f /\ sliceIs f (lOff l) (lSize l) d /\ decM d = Ok b /\ blockMapRead (Z.of_nat bs) cs b = Ok (m, t).

  Definition sizesOk (r bundle : Z) (off : nat) (v out : list Z) : Prop :=
    0 <= r < 2 ^ 29 /\ 0 <= bundle < 2 ^ 64 /\ Z.of_nat off + Z.of_nat (length out) < 2 ^ 60 /\ Z.of_nat (length v) < 2 ^ 62 /\
    Z.of_nat (length v) < 2 ^ 31 * Z.of_nat bs.
  Definition storedAt (r bundle : Z) (off : nat) (out : list Z) : Prop := exists f, repo r bundle = Some f /\ sliceIs f off (length out) out.

  (** [history r v l]: some backups of the file have been made, the last one is [r], found the content [v], and has its map at [l].  The first
      backup has no prior map, later ones read the one of the backup before.  When nothing is written the file is a reference to where the
      map was (src/command/backup/file.c.inc, process.c.inc: noop). *)
  Inductive history : Z -> list Z -> mloc -> Prop :=
  | h_first r bundle off v out n : v <> [] -> sizesOk r bundle off v out -> backupRun None r bundle off v out n -> storedAt r bundle off out ->
      history r v (mkLoc r bundle (off + length out - n) n)
  | h_same r v l r' bundle off v' out m : history r v l -> r < r' -> v' <> [] -> noCollision hash bs v v' -> mapAt l m -> sizesOk r' bundle off v' out ->
      backupRun (Some m) r' bundle off v' out 0 -> history r' v' l
  | h_next r v l r' bundle off v' out n m : history r v l -> r < r' -> v' <> [] -> noCollision hash bs v v' -> mapAt l m -> sizesOk r' bundle off v' out ->
      backupRun (Some m) r' bundle off v' out n -> n <> O -> storedAt r' bundle off out ->
      history r' v' (mkLoc r' bundle (off + length out - n) n).
End Chain.
