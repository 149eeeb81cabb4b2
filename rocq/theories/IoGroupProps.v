From Verif Require Import Base IoGroupModel IoGroupSpec IoGroupProof IoGroupProof2 IoGroupProof3 IoGroupExample.
Open Scope Z_scope.

Section Props.
Variables (D : Type) (isOut : D -> bool) (inOut : D -> option (list Z) -> nat -> D * list Z) (procIn : D -> list Z -> D) (same : D -> bool)
  (done : D -> option bool) (bufferNew : D) (V : Type) (drvRead : V -> nat -> bool -> V * list Z) (drvEof : V -> bool) (blk : bool) (size : nat).
Local Notation calls := (calls D isOut inOut procIn same done bufferNew V drvRead drvEof blk size).
Local Notation reads := (reads D isOut inOut procIn same done bufferNew V drvRead drvEof blk size).
Local Notation writes := (writes D isOut inOut procIn same done bufferNew size).
Local Notation delivered := (delivered V drvRead drvEof).
Local Notation chain := (chain D isOut inOut procIn same done).
Local Notation ioRead := (ioRead D isOut inOut procIn same done V drvRead drvEof blk size).
Local Notation ioReadSmall := (ioReadSmallLoop D isOut inOut procIn same done V drvRead drvEof blk size).
Local Notation ioReadLine := (ioReadLine D isOut inOut procIn same done V drvRead drvEof blk size).
Local Notation ioWriteClose := (ioWriteClose D isOut inOut procIn same done size).
Local Notation filters g := (map (fD D) (gFlts D g)).
Hypotheses (Hok : filterOk D isOut inOut procIn same done) (Hsz : (0 < size)%nat) (Hb1 : fresh D same bufferNew) (Hb2 : isOut bufferNew = true).

(** ioRead() until the end: all that has been returned is what the filters make of all that the driver has delivered. *)
Theorem C56_read_all v0 ds st r : Forall (fresh D same) ds -> reads v0 ds st r -> ioEofAll D V st = true ->
  exists s, delivered v0 (ioDrv D V st) s /\ drvEof (ioDrv D V st) = true /\ chain (withBuffer D isOut bufferNew ds) s (filters (ioGroup D V st)) r.
Proof.
  intros Hf H E. destruct (reads_calls D isOut inOut procIn same done bufferNew Hok V drvRead drvEof blk size Hsz Hb1 Hb2 v0 ds st r Hf H) as [Hc Ho].
  apply calls_rI in Hc; try assumption. destruct (rI_eof _ _ _ _ _ _ _ _ _ _ _ _ _ Hc E) as (s & H1 & H2 & H3). rewrite Ho, app_nil_r in H3. eauto.
Qed.
(** Each ioRead() fills the buffer unless the end is reached. *)
Theorem C56_read_full v0 ds st r fuel cap buf st' buf' : Forall (fresh D same) ds -> calls v0 ds st r -> ioRead fuel st cap buf = Ok (st', buf') ->
  (exists a, buf' = buf ++ a) /\ (ioEofAll D V st' = true \/ (cap <= length buf')%nat).
Proof.
  intros Hf H E. apply calls_rI in H; try assumption. destruct (open_rI D isOut inOut procIn same done bufferNew V drvRead drvEof size Hsz Hb1 Hb2 v0 ds Hf) as [_ Hf'].
  destruct (read_ok _ _ _ _ _ _ Hok _ _ _ _ _ _ _ Hf' _ _ _ _ _ _ _ H E) as (a & -> & _ & _ & He). eauto.
Qed.
(** Any mix of reads, small reads and lines: all that has been taken, followed by what is left in the internal buffer, is what the filters make of the
    data when the end is reached. *)
Theorem C56_calls_all v0 ds st r : Forall (fresh D same) ds -> calls v0 ds st r -> ioEofAll D V st = true ->
  exists s, delivered v0 (ioDrv D V st) s /\ drvEof (ioDrv D V st) = true /\ chain (withBuffer D isOut bufferNew ds) s (filters (ioGroup D V st)) (r ++ ioOutput D V st).
Proof. intros Hf H E. apply calls_rI in H; try assumption. eapply rI_eof; eassumption. Qed.
Theorem C56_line v0 ds st r fuel allowEof st' line : Forall (fresh D same) ds -> calls v0 ds st r -> ioReadLine fuel st allowEof = Ok (st', line) ->
  ~ In 10 line /\ (calls v0 ds st' (r ++ line ++ [10]) \/ allowEof = true /\ ioEofAll D V st' = true /\ ioOutput D V st' = line /\ calls v0 ds st' r).
Proof.
  intros Hf H E. pose proof (calls_line _ _ _ _ _ _ _ _ _ _ _ _ _ _ _ _ _ _ _ _ H E) as H2. apply calls_rI in H; try assumption.
  destruct (open_rI D isOut inOut procIn same done bufferNew V drvRead drvEof size Hsz Hb1 Hb2 v0 ds Hf) as [_ Hf'].
  destruct (line_ok _ _ _ _ _ _ Hok _ _ _ _ _ _ _ Hf' _ _ _ _ _ _ H E) as (Hn & [[Hu _]|(Hu & Ha & He & Ho & _)]).
  - split; [exact Hn|]. left. destruct (ioUsed D V st'); [lia|]. exact H2.
  - split; [exact Hn|]. right. rewrite Hu in H2. cbn in H2. rewrite app_nil_r in H2. auto.
Qed.
(** Nothing undefined happens and no check fails, whatever the calls; without an end of the loops within [fuel] the result is EOther. *)
Theorem C56_no_failure v0 ds st r fuel cap buf allowEof : progress D inOut same -> Forall (fresh D same) ds -> calls v0 ds st r ->
  ((exists x, ioRead fuel st cap buf = Ok x) \/ ioRead fuel st cap buf = Err EOther) /\
  ((exists x, ioReadSmall fuel st cap buf = Ok x) \/ ioReadSmall fuel st cap buf = Err EOther) /\
  ((exists x, ioReadLine fuel st allowEof = Ok x) \/ ioReadLine fuel st allowEof = Err EOther \/ ioReadLine fuel st allowEof = Err EFileRead).
Proof.
  intros Hpr Hf H. apply calls_rI in H; try assumption. destruct (open_rI D isOut inOut procIn same done bufferNew V drvRead drvEof size Hsz Hb1 Hb2 v0 ds Hf) as [_ Hf'].
  split; [|split]; [eapply read_total|eapply small_total|eapply line_total]; eassumption.
Qed.
(** Writes and the close: the driver has been given what the filters make of all that was written, in pieces of the buffer size but for the last. *)
Theorem C56_write_all ds st s fuel st' : Forall (fresh D same) ds -> writes ds st s -> ioWriteClose fuel st = Ok st' ->
  chain (withBuffer D isOut bufferNew ds) s (filters (iwGroup D st')) (concat (iwWritten D st')) /\
  exists full rest, iwWritten D st' = full ++ rest /\ Forall (fun b => length b = size) full /\ (rest = [] \/ exists b, rest = [b] /\ (0 < length b < size)%nat).
Proof.
  intros Hf H E. destruct (writes_ok _ _ _ _ _ _ _ _ Hok Hsz Hb1 Hb2 _ _ _ Hf H) as (H1 & H2 & H3). destruct (open_ok D isOut inOut procIn same done bufferNew size ds Hsz Hf Hb1 Hb2) as [_ Hf'].
  destruct (close_loop D isOut inOut procIn same done bufferNew size Hok Hsz _ Hf' fuel st st' _ s H1 H3) as (K1 & _ & K2); [rewrite H2; now left|exact E|auto].
Qed.
(** Filters that stand for functions: the sizes of reads, writes and buffers do not matter. *)
Theorem C56_functions ds fs ds' s t : chain ds s ds' t -> areFunctions isOut inOut same done ds fs -> t = compose fs s.
Proof. apply chain_functions. Qed.
(** What is written through [fs] and read back through [gs] is the same if [gs] undoes [fs]. *)
Theorem C56_written_then_read ds fs st s fuel st' v0 es gs rd r :
  Forall (fresh D same) ds -> Forall (fresh D same) es ->
  areFunctions isOut inOut same done (withBuffer D isOut bufferNew ds) fs -> areFunctions isOut inOut same done (withBuffer D isOut bufferNew es) gs ->
  (forall x, compose gs (compose fs x) = x) ->
  writes ds st s -> ioWriteClose fuel st = Ok st' ->
  (forall x, delivered v0 (ioDrv D V rd) x -> x = concat (iwWritten D st')) -> reads v0 es rd r -> ioEofAll D V rd = true -> r = s.
Proof.
  intros Hd He Ff Fg Inv Hw Ec Hfile Hr Ee. destruct (C56_write_all _ _ _ _ _ Hd Hw Ec) as [C1 _]. destruct (C56_read_all _ _ _ _ He Hr Ee) as (x & Hx & _ & C2).
  rewrite (C56_functions _ _ _ _ _ C1 Ff) in Hfile. rewrite (C56_functions _ _ _ _ _ C2 Fg), (Hfile x Hx). apply Inv.
Qed.
End Props.
Print Assumptions C56_read_all.
Print Assumptions C56_read_full.
Print Assumptions C56_calls_all.
Print Assumptions C56_line.
Print Assumptions C56_no_failure.
Print Assumptions C56_write_all.
Print Assumptions C56_functions.
Print Assumptions C56_written_then_read.

(** The buffer filter, which is added if the last filter has no output, changes nothing. *)
Theorem C56_buffer d s o : complete (nat * bool) ioBufferProcess snd (fun _ => None) (O, false) d s o -> o = s.
Proof. apply buffer_identity. Qed.
Print Assumptions C56_buffer.

(** "ioReadSmall() returns what was asked for unless there is no more" does not hold: filters that need two steps to flush leave data in the internal
    buffer with the end already reported. *)
Local Notation exSmall := (ioReadSmallLoop ex exIsOut exInOut exProcIn exSame exDone (list Z) exRead exEof false 4).
Local Notation exLine := (ioReadLine ex exIsOut exInOut exProcIn exSame exDone (list Z) exRead exEof false 4).
Local Notation exOpen := (ioReadNewOpen ex exIsOut exNew (list Z) 4).
Theorem C56_small_short_refuted : exists st1 st2 st3,
  exSmall 50 (exOpen [7; 8] [exDouble]) 2 [] = Ok (st1, [7; 7]) /\ exSmall 50 st1 2 [] = Ok (st2, [8; 8]) /\
  exSmall 50 st2 3 [] = Ok (st3, [100; 101; 102]) /\
  exists st4, exSmall 50 st3 3 [] = Ok (st4, [103]) /\ ioEofAll _ _ st4 = true /\ ioOutput _ _ st4 = [104; 105].
Proof.
  do 3 eexists. split; [vm_compute; reflexivity|]. split; [vm_compute; reflexivity|]. split; [vm_compute; reflexivity|]. eexists. split; [vm_compute; reflexivity|]. split; reflexivity.
Qed.
Print Assumptions C56_small_short_refuted.
(** "The last line is returned once" does not hold either: without a linefeed it stays in the buffer. *)
Theorem C56_last_line_again_refuted : exists st1 st2, exLine 50 (exOpen [65; 66] []) true = Ok (st1, [65; 66]) /\ exLine 50 st1 true = Ok (st2, [65; 66]).
Proof. do 2 eexists. split; [vm_compute; reflexivity|]. vm_compute; reflexivity. Qed.
Print Assumptions C56_last_line_again_refuted.

Example C56_nontrivial :
  filterOk ex exIsOut exInOut exProcIn exSame exDone /\ Forall (fresh ex exSame) [ExSum 0; exDouble; ExSum 0] /\
  (exists st1 st2, ioRead ex exIsOut exInOut exProcIn exSame exDone (list Z) exRead exEof false 4 99 (exOpen [1; 2; 3; 4; 5] [ExSum 0; exDouble; ExSum 0]) 7 [] = Ok (st1, [1; 1; 2; 2; 3; 3; 4]) /\
    ioRead ex exIsOut exInOut exProcIn exSame exDone (list Z) exRead exEof false 4 99 st1 100 [] = Ok (st2, [4; 5; 5; 100; 101; 102; 103; 104; 105]) /\
    ioEofAll _ _ st2 = true /\ map (fD ex) (gFlts ex (ioGroup _ _ st2)) = [ExSum 15; ExDouble 0 false 6; ExSum 645; ExBuf (O, false)]) /\
  (exists st1 st2 st3, ioWrite ex exIsOut exInOut exProcIn exSame exDone 4 99 (ioWriteNewOpen ex exIsOut exNew 4 [ExSum 0; exDouble; ExSum 0]) [1; 2; 3] = Ok st1 /\
    ioWrite ex exIsOut exInOut exProcIn exSame exDone 4 99 st1 [4; 5] = Ok st2 /\ ioWriteClose ex exIsOut exInOut exProcIn exSame exDone 4 99 st2 = Ok st3 /\
    iwWritten _ st3 = [[1; 1; 2; 2]; [3; 3; 4; 4]; [5; 5; 100; 101]; [102; 103; 104; 105]]) /\
  (exists st1 st2 st3, exLine 99 (exOpen [65; 10; 66; 67; 10] []) false = Ok (st1, [65]) /\ exLine 99 st1 false = Ok (st2, [66; 67]) /\ exLine 99 st2 true = Ok (st3, [])).
Proof.
  split; [apply ex_filterOk|]. split; [apply ex_fresh|]. split; [|split].
  - do 2 eexists. split; [vm_compute; reflexivity|]. split; [vm_compute; reflexivity|]. split; reflexivity.
  - do 3 eexists. split; [vm_compute; reflexivity|]. split; [vm_compute; reflexivity|]. split; [vm_compute; reflexivity|]. reflexivity.
  - do 3 eexists. split; [vm_compute; reflexivity|]. split; [vm_compute; reflexivity|]. vm_compute; reflexivity.
Qed.
