(** C54: files of a manifest are packed in memory without loss. *)
From Verif Require Import Base Str ConvertModel ManifestPackModel ManifestPackSpec ManifestPackProof ManifestPackProof2.
Open Scope Z_scope.

(** Every file within the ranges of its types can be packed.  Whatever references and owners are added later and whatever the defaults are then, it
    is unpacked as it was, with the later defaults for the earlier ones. *)
Theorem C54_unpack : forall x bt f, fileOk (baseTimeSet bt f) f -> namesKnown x f ->
  exists p bt', manifestFilePack x bt f = Ok (p, bt') /\ (bt <> -1 -> bt' = bt) /\ (bt = -1 -> bt' = mfTimestamp f) /\
    forall x', extends x x' -> manifestFileUnpack x' bt' p = Ok (stored x x' f).
Proof.
  intros x bt f Hf Hn. destruct (pack_ok x bt f Hf Hn) as (p & E & U). exists p, (baseTimeSet bt f). split; [exact E|].
  split; [intros H; unfold baseTimeSet; destruct (Z.eqb_spec bt (-1)); congruence|]. split; [intros ->; reflexivity|exact U].
Qed.
Print Assumptions C54_unpack.
(** With the same defaults nothing is changed, unless there is an offset without a bundle or a size without blocks. *)
Theorem C54_lossless : forall x bt f, fileOk (baseTimeSet bt f) f -> namesKnown x f -> complete f -> 0 <= mxMode x < 2 ^ 32 ->
  exists p bt', manifestFilePack x bt f = Ok (p, bt') /\ manifestFileUnpack x bt' p = Ok f.
Proof.
  intros x bt f Hf Hn Hc Hm. destruct (pack_ok x bt f Hf Hn) as (p & E & U). exists p, (baseTimeSet bt f). split; [exact E|].
  rewrite (U x (extends_refl x Hm)), (stored_complete x f Hc). reflexivity.
Qed.
Print Assumptions C54_lossless.
(** The packed list behaves as a list of files: after any sequence of adding files, replacing files and adding references, each file is the one
    last put there. *)
Theorem C54_list : forall x bt ops, 0 <= mxMode x < 2 ^ 32 -> opsOk (mxReferences x) (mxOwners x) 0 ops ->
  Z.of_nat (length (mxReferences x)) + Z.of_nat (length (mxOwners x)) + 2 * Z.of_nat (length ops) < 2 ^ 32 -> timeOk bt ->
  (forall o f, In o ops -> opFile o = Some f -> fileRange f /\ complete f /\ (bt <> -1 \/ mfTimestamp f <> -1)) ->
  exists s, packRun (mkMfiles x bt []) ops = Ok s /\
    forall i, manifestFile s i = match nth_error (fold_left fileStep ops []) i with Some f => Ok f | None => Err EAssert end.
Proof.
  intros x bt ops Hm Ho Hl Ht Hf.
  assert (Hi : inv x (mkMfiles x bt []) []) by (split; [repeat split|]; split; [now right|]; split; [exact Ht|constructor]).
  destruct (run_ok x Hm ops _ [] _ _ Hi Ho (incl_refl _) (incl_refl _) Hl) as (s & E & Hs).
  { intros o f Hin Eo. destruct (Hf o f Hin Eo) as (H1 & _ & H2). auto. }
  exists s. split; [exact E|]. intros i. destruct Hs as (Hd & _ & _ & HF). pose proof (Forall2_nthE _ _ _ HF i) as K. unfold manifestFile.
  destruct (nth_error (msPacks s) i) as [p|], (nth_error (fold_left fileStep ops []) i) as [f|] eqn:Ef; try (destruct K; fail); [|reflexivity].
  rewrite (K (msCtx s)); [|apply extends_refl; destruct Hd as (_ & _ & ->); exact Hm|exact Hd]. f_equal. apply stored_complete.
  assert (Hall : forall ops l, (forall o f, In o ops -> opFile o = Some f -> complete f) -> Forall complete l -> Forall complete (fold_left fileStep ops l)).
  { clear. induction ops as [|o ops IH]; intros l Hf Hl; [exact Hl|]. cbn [fold_left]. apply IH; [intros; eapply Hf; [right|]; eassumption|].
    destruct o as [f|i f|r]; cbn [fileStep]; [apply Forall_app; split; [exact Hl|constructor; [apply (Hf (OpAdd f)); [now left|reflexivity]|constructor]]| |exact Hl].
    apply Forall_app. rewrite Forall_forall in Hl. split; [apply Forall_forall; intros y Hy; apply Hl; rewrite <- (firstn_skipn i l); apply in_or_app; now left|].
    constructor; [apply (Hf (OpUpdate i f)); [now left|reflexivity]|]. apply Forall_forall. intros y Hy. apply Hl. rewrite <- (firstn_skipn (S i) l). apply in_or_app. now right. }
  assert (Hc : Forall complete (fold_left fileStep ops [])) by (apply Hall; [intros o f0 Hin Eo; apply (Hf o f0 Hin Eo)|constructor]).
  rewrite Forall_forall in Hc. apply Hc. eapply nth_error_In, Ef.
Qed.
Print Assumptions C54_list.

Definition exFile (ts : Z) : mfile :=
  mkMfile [97;47;98] true false false true true 384 (Some (repeat 7 20)) None (Some [91;49;93]) (Some [112]) (Some [113]) (Some [76]) 3 16 16384 6 77 40000 40001 333 ts.
(** The timestamp -1 stands for no base time: when it is the timestamp of the first file, the next file changes that of the first. *)
Theorem C54_base_time_refuted : exists x f g s, packRun (mkMfiles x (-1) []) [OpAdd f; OpAdd g] = Ok s /\ fileRange f /\ fileRange g /\ complete f /\ complete g /\
  opsOk (mxReferences x) (mxOwners x) 0 [OpAdd f; OpAdd g] /\ mfTimestamp f = -1 /\
  exists f', manifestFile s 0 = Ok f' /\ mfTimestamp f' = 5 /\ mfTimestamp g = 5.
Proof.
  assert (R : forall t, timeOk t -> fileRange (exFile t)).
  { intros t Ht. split; [|exact Ht]. unfold fileOk, lenOk, shaOk, u64, timeOk in *. cbn. repeat split; try lia. exists 2. reflexivity. }
  assert (C : forall t, complete (exFile t)) by (intros t; split; cbn; lia).
  exists (mkMctx [[76]] [] (Some [112]) None 416), (exFile (-1)), (exFile 5). eexists. split; [vm_compute; reflexivity|].
  split; [apply R; unfold timeOk; lia|]. split; [apply R; unfold timeOk; lia|]. split; [apply C|]. split; [apply C|].
  split; [|split; [reflexivity|]].
  - constructor; [intros r [= <-]; now left|]. constructor; [intros r [= <-]; now left|constructor].
  - eexists. split; [vm_compute; reflexivity|]. auto.
Qed.
Print Assumptions C54_base_time_refuted.

(** A file with everything set, packed when the group q is not the default; a second one, and the first replaced. *)
Example C54_nontrivial : let x := mkMctx [[75]; [76]] [] (Some [112]) None 416 in
  fileOk (baseTimeSet (-1) (exFile 100)) (exFile 100) /\ namesKnown (ownerCache (ownerCache x (Some [112])) (Some [113])) (exFile 100) /\ complete (exFile 100) /\
  (exists p, manifestFilePack (ownerCache (ownerCache x (Some [112])) (Some [113])) 103 (exFile 100) = Ok (p, 103) /\ length p = 84%nat) /\
  exists s, packRun (mkMfiles x (-1) []) [OpAdd (exFile 100); OpAdd (exFile 90); OpReference [77]; OpUpdate 0 (exFile 200)] = Ok s /\
    manifestFile s 0 = Ok (exFile 200) /\ manifestFile s 1 = Ok (exFile 90).
Proof.
  cbv zeta. split; [|split; [|split; [split; cbn; lia|split; [eexists; split; [vm_compute; reflexivity|reflexivity]|eexists; split; [vm_compute; reflexivity|split; vm_compute; reflexivity]]]]].
  - unfold fileOk, lenOk, shaOk, u64. cbn. repeat split; try lia. exists 2. reflexivity.
  - unfold namesKnown, lenOk. cbn. repeat split; try lia; intros r [= <-]; auto.
Qed.
