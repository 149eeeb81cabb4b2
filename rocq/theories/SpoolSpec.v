(** Vocabulary of the spool properties: names in archive_status and in the spool, written out independently of the model. *)
From Verif Require Import Base Str SpoolModel.
From Coq Require Import Sorted.
Open Scope Z_scope.

(** WAL file [n] is waiting for archiving: "<n>.ready" is in archive_status. *)
Definition isReady (names : list str) (n : str) : Prop := In (n ++ [46;114;101;97;100;121]) names.
(** The spool holds "<n>.ok". *)
Definition hasOk (spool : dir) (n : str) : Prop := exists c, In (n ++ [46;111;107], c) spool.

(** Directory entries have distinct names. *)
Definition isDir (d : dir) : Prop := NoDup (map fst d).

Definition isPrefix (a b : str) : Prop := exists t, b = a ++ t.
(** No name is a proper prefix of another. *)
Definition prefixFree (P : str -> Prop) : Prop := forall a b, P a -> P b -> isPrefix a b -> a = b.

(** White space removed by trimming. *)
Definition white (c : Z) : Prop := c = 32 \/ c = 9 \/ c = 13 \/ c = 10.
