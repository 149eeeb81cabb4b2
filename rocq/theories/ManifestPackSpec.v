(** What the packed file list of a manifest stands for, stated without packing. *)
From Verif Require Import Base Str ManifestPackModel.
Open Scope Z_scope.

Definition u64 (v : Z) : Prop := 0 <= v < 2 ^ 64.
Definition shaOk (o : option (list Z)) : Prop := match o with Some s => length s = 20%nat | None => True end.
Definition lenOk {A} (l : list A) : Prop := Z.of_nat (length l) < 2 ^ 32.

(** A file within the ranges of its C types, its timestamp not further than 63 bits from [base], its block size a multiple of 8192. *)
Definition fileOk (base : Z) (f : mfile) : Prop :=
  lenOk (mfName f) /\ match mfErrorList f with Some e => lenOk e | None => True end /\ shaOk (mfSha1 f) /\ shaOk (mfRepoSha1 f) /\
  0 <= mfMode f < 2 ^ 32 /\ u64 (mfBundleId f) /\ u64 (mfBundleOffset f) /\ u64 (mfBlockSize f) /\ (8192 | mfBlockSize f) /\
  u64 (mfBlockChecksumSize f) /\ u64 (mfBlockMapSize f) /\ u64 (mfSize f) /\ u64 (mfSizeOriginal f) /\ u64 (mfSizeRepo f) /\
  - 2 ^ 63 <= mfTimestamp f < 2 ^ 63 /\ - 2 ^ 63 <= base - mfTimestamp f < 2 ^ 63.
(** The references and owners are known. *)
Definition namesKnown (x : mctx) (f : mfile) : Prop :=
  lenOk (mxReferences x) /\ lenOk (mxOwners x) /\ (forall r, mfReference f = Some r -> In r (mxReferences x)) /\
  (forall u, mfUser f = Some u -> In u (mxOwners x)) /\ (forall g, mfGroup f = Some g -> In g (mxOwners x)).
(** Later states of the manifest: more references and owners, and maybe other defaults. *)
Definition extends (x x' : mctx) : Prop :=
  (exists r, mxReferences x' = mxReferences x ++ r) /\ (exists o, mxOwners x' = mxOwners x ++ o) /\ 0 <= mxMode x' < 2 ^ 32.
Definition sameDefaults (x x' : mctx) : Prop := mxUser x' = mxUser x /\ mxGroup x' = mxGroup x /\ mxMode x' = mxMode x.

(** What was a default becomes the later default. *)
Definition owner (d d' o : option str) : option str :=
  match o with
  | None => None
  | Some s => match d with Some s' => if strEqb s s' then d' else o | None => o end
  end.
(** The file as it is read back: an offset without a bundle and sizes without blocks are dropped. *)
Definition stored (x x' : mctx) (f : mfile) : mfile :=
  mkMfile (mfName f) (mfCopy f) (mfDelta f) (mfResume f) (mfChecksumPage f) (mfChecksumPageError f)
    (if mfMode f =? mxMode x then mxMode x' else mfMode f) (mfSha1 f) (mfRepoSha1 f) (mfErrorList f)
    (owner (mxUser x) (mxUser x') (mfUser f)) (owner (mxGroup x) (mxGroup x') (mfGroup f)) (mfReference f)
    (mfBundleId f) (if mfBundleId f =? 0 then 0 else mfBundleOffset f) (mfBlockSize f)
    (if mfBlockSize f =? 0 then 0 else mfBlockChecksumSize f) (if mfBlockSize f =? 0 then 0 else mfBlockMapSize f)
    (mfSize f) (mfSizeOriginal f) (mfSizeRepo f) (mfTimestamp f).
(** Nothing to drop. *)
Definition complete (f : mfile) : Prop :=
  (mfBundleId f = 0 -> mfBundleOffset f = 0) /\ (mfBlockSize f = 0 -> mfBlockChecksumSize f = 0 /\ mfBlockMapSize f = 0).

(** The list of files as a plain list, and the calls that change it. *)
Inductive fop := OpAdd (f : mfile) | OpUpdate (i : nat) (f : mfile) | OpReference (r : str).
Definition fileStep (l : list mfile) (o : fop) : list mfile :=
  match o with
  | OpAdd f => l ++ [f]
  | OpUpdate i f => firstn i l ++ f :: skipn (S i) l
  | OpReference _ => l
  end.
Definition packStep (s : mfiles) (o : fop) : res mfiles :=
  match o with
  | OpAdd f => manifestFileAdd s f
  | OpUpdate i f => manifestFileUpdateByIdx s i f
  | OpReference r => Ok (manifestReferenceAdd s r)
  end.
Fixpoint packRun (s : mfiles) (l : list fop) : res mfiles :=
  match l with [] => Ok s | o :: r => let* s := packStep s o in packRun s r end.
(** A call that may be made: an added file refers to known backups; an update is of a file in the list by known owners. *)
Inductive opsOk : list str -> list str -> nat -> list fop -> Prop :=
| oo_nil refs owners n : opsOk refs owners n []
| oo_add refs owners n f l : (forall r, mfReference f = Some r -> In r refs) ->
    opsOk refs (match mfUser f with Some u => [u] | None => [] end ++ match mfGroup f with Some g => [g] | None => [] end ++ owners) (S n) l ->
    opsOk refs owners n (OpAdd f :: l)
| oo_update refs owners n i f l : (i < n)%nat -> (forall r, mfReference f = Some r -> In r refs) ->
    (forall u, mfUser f = Some u -> In u owners) -> (forall g, mfGroup f = Some g -> In g owners) ->
    opsOk refs owners n l -> opsOk refs owners n (OpUpdate i f :: l)
| oo_reference refs owners n r l : opsOk (refs ++ [r]) owners n l -> opsOk refs owners n (OpReference r :: l).
Definition opFile (o : fop) : option mfile := match o with OpAdd f | OpUpdate _ f => Some f | OpReference _ => None end.
(** Times of 62 bits; a file within the ranges of its types whatever the base is. *)
Definition timeOk (t : Z) : Prop := - 2 ^ 62 <= t < 2 ^ 62.
Definition fileRange (f : mfile) : Prop := fileOk (mfTimestamp f) f /\ timeOk (mfTimestamp f).
