(** C86: reading a file with retries. *)
From Verif Require Import Base MultiModel MultiSpec MultiProof MultiProof2 RetryModel RetrySpec RetryProof.
Open Scope Z_scope.

(** Whatever fails and whatever was in the buffer when it did, the bytes added to the buffers are the bytes of the range asked for, with none lost or given twice;
    what is left is what the driver will give. *)
Theorem C86_bytes content off lim retry bufs evs out r : 0 <= off < 2 ^ 64 -> match lim with None => True | Some l => 0 <= l < 2 ^ 64 end -> Z.of_nat (length content) < 2 ^ 64 ->
  stable content evs -> readFile retry (newReader content off lim) bufs evs = Ok (out, r) -> asked content off lim = out ++ dLeft r.
Proof.
  intros O L C ST H. change (2 ^ 64) with B64 in *. assert (I : inv content (newReader content off lim)) by (unfold inv, newReader; cbn [dOff dLim dRead dLeft]; repeat split; try assumption; try lia).
  destruct (read_file content retry bufs _ _ _ _ I ST H) as (E & _). cbn [newReader dLeft] in E. rewrite openAt_asked in E; [assumption|lia|destruct lim; [lia|trivial]].
Qed.
Print Assumptions C86_bytes.
(** What was in the buffer stays, no more is added than there is room, and the count is right. *)
Theorem C86_buffer content off lim retry r0 bufs0 evs0 out0 buf room evs b got r evs2 : 0 <= off < 2 ^ 64 -> match lim with None => True | Some l => 0 <= l < 2 ^ 64 end -> Z.of_nat (length content) < 2 ^ 64 ->
  stable content evs0 -> stable content evs -> readFile retry (newReader content off lim) bufs0 evs0 = Ok (out0, r0) ->
  storageRead retry r0 buf room evs = Ok (b, got, r, evs2) -> exists new, b = buf ++ new /\ got = Z.of_nat (length new) /\ (length new <= room)%nat.
Proof.
  intros O L C ST0 ST H0 H. change (2 ^ 64) with B64 in *. assert (I : inv content (newReader content off lim)) by (unfold inv, newReader; cbn [dOff dLim dRead dLeft]; repeat split; try assumption; try lia).
  destruct (read_file content retry bufs0 _ _ _ _ I ST0 H0) as (_ & I2). destruct (try_spec content _ _ _ _ _ _ _ _ _ I2 ST H) as (g & G1 & G2 & G3 & _). now exists g.
Qed.
Print Assumptions C86_buffer.
(** There are three tries, or one if the storage does not retry: a read succeeds just if a try does, with failures before it other than a missing file. *)
Theorem C86_tries (retry : bool) r buf room evs : let tries := if retry then 3%nat else 1%nat in (tries <= length evs)%nat ->
  ((exists x, storageRead retry r buf room evs = Ok x) <-> outcome tries evs None) /\ (forall e, storageRead retry r buf room evs = Err e <-> outcome tries evs (Some e)).
Proof.
  intros tries L. assert (T : exists t, tries = S t) by (subst tries; destruct retry; eauto). destruct T as (t & T). pose proof (try_outcome t r (length buf) room buf evs) as H.
  unfold storageRead. fold tries. rewrite T in *. destruct (tryRead (S t) r (length buf) room buf evs) as [x|e|].
  - split; [split; [auto|eauto]|]. intros e. split; [discriminate|]. intros O. discriminate (outcome_det _ _ _ _ H O).
  - split; [split; [intros (x & X); discriminate|intros O; discriminate (outcome_det _ _ _ _ H O)]|]. intros e2. split; [intros [= <-]; exact H|]. intros O. pose proof (outcome_det _ _ _ _ H O). congruence.
  - lia.
Qed.
Print Assumptions C86_tries.
(** If the file is replaced between two tries, what is read is neither the old file nor the new one. *)
Theorem C86_replaced_refuted : exists old new bufs evs out r, readFile true (newReader old 0 None) bufs evs = Ok (out, r) /\ dLeft r = [] /\ out <> old /\ out <> new.
Proof.
  exists [1; 2; 3; 4], [5; 6; 7; 8], [([], 2%nat); ([], 2%nat)], [Gives 2; Fails 1 EFileRead (inl [5; 6; 7; 8]); Gives 2], [1; 2; 7; 8]. eexists. split; [vm_compute; reflexivity|]. repeat split; discriminate.
Qed.
Print Assumptions C86_replaced_refuted.

(** A range of six bytes, with two failures in the second read and one in the third. *)
Example C86_nontrivial :
  let content := [0; 1; 2; 3; 4; 5; 6; 7; 8; 9] in
  let evs := [Gives 9; Fails 1 EFileRead (inl content); Fails 0 EOther (inl content); Gives 1; Fails 2 EFileRead (inl content); Gives 4] in
  (stable content evs /\ asked content 2 (Some 6) = [2; 3; 4; 5; 6; 7]) /\
  (exists r, readFile true (newReader content 2 (Some 6)) [([], 2%nat); ([50], 2%nat); ([], 2%nat)] evs = Ok ([2; 3; 4; 5; 6], r) /\ dLeft r = [7]) /\
  readFile true (newReader content 2 None) [([], 2%nat)] [Fails 1 EFileRead (inl content); Fails 1 EOther (inl content); Fails 0 EFileRead (inl content)] = Err EFileRead /\
  readFile true (newReader content 2 None) [([], 2%nat)] [Fails 1 EFileMissing (inl content)] = Err EFileMissing.
Proof.
  cbv zeta. split; [split; [|vm_compute; reflexivity]|].
  - intros k e c I. cbn [In] in I. repeat (destruct I as [I|I]; [congruence|]). destruct I.
  - split; [eexists; split; vm_compute; reflexivity|]. split; vm_compute; reflexivity.
Qed.
