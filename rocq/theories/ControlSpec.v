(** What the claims on stop and start say. *)
From Verif Require Import Base Str RegNameModel ControlModel.
From Coq Require Import String List.
Open Scope Z_scope. Open Scope list_scope.

Definition ended (s e : str) : Prop := exists p, s = p ++ e.
Definition begun (s p : str) : Prop := exists e, s = p ++ e.
(** A stanza may not run: there is a stop file for it or for all. *)
Definition stopped (stanza : option str) (dir : list str) : Prop :=
  In (txt "all.stop") dir \/ exists s, stanza = Some s /\ In (s ++ txt ".stop") dir.
(** The lock files of a stanza: any type, any repository. *)
Definition lockOf (s f : str) : Prop := exists t k, 0 <= k < 2 ^ 32 /\ f = cmdLockFileName s t k.
(** Neither name is the other one followed by a dash and more. *)
Definition apart (s t : str) : Prop := ~ begun t (s ++ txt "-") /\ ~ begun s (t ++ txt "-").
