(** Property C27: filters do not depend on how the data is cut into buffers. *)
From Verif Require Import Base Str BlockMapModel BlockIncrModel BlockIncrSpec BlockIncrProof BlockCheckProof.
Open Scope Z_scope.

(** C27.  The block incremental filter terminates and outputs the same bytes, with the same map size, for any two ways to cut the file into
    buffers and any two ways in which the output buffer is emptied, as long as there is always room for a byte in it. *)
Theorem C27_block_incr : forall hash encB encM sbs bs ref bundle prior off chunks1 out1 chunks2 out2,
  (0 < bs)%nat -> concat chunks1 = concat chunks2 -> (forall n, 1 <= snd (out1 n))%nat -> (forall n, 1 <= snd (out2 n))%nat ->
  exists r fl, forall fuel, (fl <= fuel)%nat ->
    incrRun hash encB encM sbs bs ref bundle prior fuel out1 off chunks1 = Ok r /\ incrRun hash encB encM sbs bs ref bundle prior fuel out2 off chunks2 = Ok r.
Proof.
  intros hash encB encM sbs bs ref bundle prior off c1 o1 c2 o2 Hbs E H1 H2. destruct (run_spec hash encB encM sbs bs ref bundle prior Hbs off (concat c1)) as (f & _ & F).
  destruct (F c1 o1 eq_refl H1) as (f1 & F1). destruct (F c2 o2 (eq_sym E) H2) as (f2 & F2). exists (bOut f, bMapSize f), (Nat.max f1 f2). intros fuel Hf. split; [apply F1|apply F2]; lia.
Qed.
Print Assumptions C27_block_incr.
(** C27.  The block checksum filter gives the hashes of the blocks of the file, however it is cut into buffers. *)
Theorem C27_block_checksum : forall hash bs chunks, (0 < bs)%nat -> exists bl, isBlocks bs (concat chunks) bl /\
  (forall bl', isBlocks bs (concat chunks) bl' -> bl' = bl) /\ checksumRun hash bs chunks = concat (map hash bl).
Proof.
  intros hash bs chunks Hbs. destruct (blocks_exist bs Hbs (concat chunks)) as (bl & B). exists bl. split; [exact B|]. split; [intros bl' B'; eapply blocks_unique; eassumption|]. now apply checksum_spec.
Qed.
Print Assumptions C27_block_checksum.
(** C27.  The size filter gives the number of bytes. *)
Theorem C27_size : forall chunks, sizeRun chunks = Z.of_nat (length (concat chunks)).
Proof. exact size_spec. Qed.
Print Assumptions C27_size.

(** Nine bytes in blocks of two with a prior map that has the second block; one time in one buffer with a large output, one time byte by byte
    with an output of one byte. *)
Definition c27_run (out : nat -> bool * nat) (chunks : list (list Z)) : res (list Z * nat) :=
  incrRun (fun b => [fold_left Z.add b 0]) (fun n d => Z.of_nat n :: d) (fun n d => 77 :: Z.of_nat n :: d) 4 2 1 0 (Some [mkItem 0 4 0 0 5 0 [9]; mkItem 0 4 0 0 5 1 [7]]) 100 out 0 chunks.
Example C27_nontrivial : exists r, c27_run (fun _ => (false, 100%nat)) [[1; 2; 3; 4; 5; 6; 7; 8; 9]] = Ok r /\
  c27_run (fun n => (Nat.odd n, 1%nat)) [[1]; [2]; []; [3]; [4]; [5; 6]; [7]; [8]; [9]] = Ok r /\ (40 < 60 * snd r)%nat /\
  checksumRun (fun b => [fold_left Z.add b 0]) 2 [[1]; [2; 3; 4; 5]; []] = [3; 7; 5] /\ sizeRun [[1]; [2; 3]] = 3.
Proof. eexists. split; [vm_compute; reflexivity|]. split; [vm_compute; reflexivity|]. split; [cbn; lia|]. split; reflexivity. Qed.
