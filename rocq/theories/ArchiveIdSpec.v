(** Cluster histories and version texts. *)
From Verif Require Import Base Str NumSpec.
Open Scope Z_scope.

(** A version number: MAJOR * 10000 from 10 on, before that MAJOR.MINOR. *)
Inductive versionText : Z -> str -> Prop :=
| vt_new major s : 10 <= major -> major * 10000 < 2 ^ 32 -> digitsIs 10 s major -> versionText (major * 10000) s
| vt_old major minor s t : 0 <= major < 10 -> 0 <= minor < 100 -> digitsIs 10 s major -> digitsIs 10 t minor -> versionText (major * 10000 + minor * 100) (s ++ 46 :: t).
Definition isVersion (v : Z) : Prop := exists s, versionText v s.
(** VERSION-ID *)
Definition archiveIdText (version id : Z) (s : str) : Prop := exists v i, versionText version v /\ digitsIs 10 i id /\ s = v ++ 45 :: i.
