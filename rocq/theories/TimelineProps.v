(** C28: timelines of a restore. *)
From Verif Require Import Base Str ConvertModel NumModel NumSpec NumProof LsnModel LsnSpec LsnProof SpoolModel SpoolSpec TimelineModel TimelineSpec TimelineProof.
Open Scope Z_scope.

(** A history file is read as what it says, and anything else is refused. *)
Theorem C28_history_exact : forall text h, historyParse text = Ok h <-> spells text h.
Proof. exact parse_spec. Qed.
Print Assumptions C28_history_exact.

(** The history of a timeline lists exactly the timelines left on the way to it, with the LSN where they were left. *)
Theorem C28_history_family : forall p t h, historyOf p t h -> forall a s, In (a, s) h <-> leaves p a s t.
Proof. exact history_leaves. Qed.
Print Assumptions C28_history_family.

(** The latest timeline is the newest of the backup's and the archived history files. *)
Theorem C28_latest : forall names current, (forall s, In s names -> histLike s -> exists n, historyName n s) ->
  exists t, timelineLatest names current = Ok t /\ newestTimeline names current t /\ forall t', newestTimeline names current t' -> t' = t.
Proof. intros names current HN. destruct (latest_spec names current HN) as (t & E & N). exists t. split; [exact E|]. split; [exact N|]. intros t' N'. exact (newest_unique names current t' t N' N). Qed.
Print Assumptions C28_latest.

(** [chosen s t]: the target text [s] means timeline [t]. *)
Definition chosen (names : list str) (backup : Z) (s : str) (t : Z) : Prop :=
  (s = latestStr /\ newestTimeline names backup t) \/ (s <> latestStr /\ s <> currentStr /\ numberTarget s t).

(** With the history files PostgreSQL writes, a target is accepted exactly when it is the backup's timeline, or the backup's timeline is left after
    the backup's LSN on the way to it.  The two messages are right: forked names an LSN where the timeline was left, not after the backup. *)
Theorem C28_accept_exact : forall p read names version backup lsn s t imm, chosen names backup s t ->
  (forall x, In x names -> histLike x -> exists n, historyName n x) ->
  (t <> backup -> exists text h, read t = Ok text /\ spells text h /\ historyOf p t h) ->
  exists v, timelineVerify read names version backup lsn (Some s) imm = Ok v /\ v <> BadTarget /\
    (v = Accept <-> t = backup \/ exists x, leaves p backup x t /\ lsn < x) /\
    (v = NotInHistory <-> t <> backup /\ forall x, ~ leaves p backup x t) /\
    (forall x, v = Forked x -> t <> backup /\ leaves p backup x t /\ x <= lsn).
Proof.
  intros p read names version backup lsn s t imm C HN HR.
  assert (E : timelineVerify read names version backup lsn (Some s) imm = verifyTarget read backup lsn t).
  { unfold timelineVerify, targetStr. cbv zeta. destruct C as [(-> & N)|(N1 & N2 & N)].
    - cbn. destruct (latest_spec names backup HN) as (t' & E & N'). rewrite E. cbn [bind]. now rewrite (newest_unique names backup t' t N' N).
    - destruct (strEqb_spec s currentStr); [contradiction|]. destruct (strEqb_spec s latestStr); [contradiction|]. apply number_spec in N. now rewrite N. }
  rewrite E. destruct (Z.eq_dec t backup) as [-> |NE].
  - exists Accept. unfold verifyTarget. rewrite Z.eqb_refl. split; [reflexivity|]. split; [discriminate|]. split; [tauto|]. split; [|discriminate]. split; [discriminate|]. intros (X & _). congruence.
  - destruct (HR NE) as (text & h & R & S' & H). destruct (target_family p read backup lsn t text h R S' H NE) as (v & E' & B & A & N & F).
    exists v. split; [exact E'|]. split; [exact B|]. split; [rewrite A; intuition|]. split; [rewrite N; intuition|]. intros x Hx. split; [exact NE|now apply F].
Qed.
Print Assumptions C28_accept_exact.

(** The backup's own timeline is always accepted, without a history file; without a target up to PostgreSQL 11 and for immediate recovery too. *)
Theorem C28_current : forall read names version backup lsn imm target,
  target = Some currentStr \/ (target = None /\ (version < 120000 /\ (version mod 10000 = 0) \/ imm = true)) ->
  timelineVerify read names version backup lsn target imm = Ok Accept.
Proof.
  intros read names version backup lsn imm target H. unfold timelineVerify. cbv zeta. assert (E : targetStr version imm target = currentStr).
  { destruct H as [-> |(-> & [(V & M)| ->])]; cbn [targetStr]; [reflexivity| |now rewrite orb_true_r]. unfold pgVersion11. replace (version <=? 110000) with true; [reflexivity|]. symmetry. apply Z.leb_le. lia. }
  rewrite E, strEqb_refl. reflexivity.
Qed.
Print Assumptions C28_current.
(** Without a target from PostgreSQL 12 on, the latest timeline is verified. *)
Theorem C28_default : forall read names version backup lsn, 120000 <= version ->
  timelineVerify read names version backup lsn None false = timelineVerify read names version backup lsn (Some latestStr) false.
Proof. intros read names version backup lsn H. unfold timelineVerify, targetStr, pgVersion11. replace (version <=? 110000) with false by (symmetry; apply Z.leb_gt; lia). reflexivity. Qed.
Print Assumptions C28_default.

(** Any other text is refused, and so is a target whose history cannot be read or does not parse. *)
Theorem C28_refused : forall read names version backup lsn s imm, s <> currentStr -> s <> latestStr ->
  ((forall t, ~ numberTarget s t) -> timelineVerify read names version backup lsn (Some s) imm = Ok BadTarget) /\
  (forall t, numberTarget s t -> t <> backup -> (forall text h, read t = Ok text -> ~ spells text h) -> forall v, timelineVerify read names version backup lsn (Some s) imm <> Ok v).
Proof.
  intros read names version backup lsn s imm N1 N2. unfold timelineVerify, targetStr. cbv zeta. destruct (strEqb_spec s currentStr); [contradiction|]. destruct (strEqb_spec s latestStr); [contradiction|]. split.
  - intros H. pose proof (number_kind s) as K. destruct (targetNumber s) as [t|k|] eqn:E; [apply number_spec in E; elim (H t E)|reflexivity|congruence].
  - intros t Ht NE HR v. apply number_spec in Ht. rewrite Ht. unfold verifyTarget. destruct (Z.eqb_spec t backup); [contradiction|]. destruct (historyLoad read t) as [h|k|] eqn:E; cbn [bind]; try discriminate. apply load_spec in E. destruct E as (text & R & S'). elim (HR text h R S').
Qed.
Print Assumptions C28_refused.

(** restore asks with the timeline of the first WAL segment and the start LSN of the backup. *)
Theorem C28_restore : forall read names version tl rest start ls stop target imm, 0 <= tl < 2 ^ 32 -> 0 <= start < 2 ^ 64 -> ls = lsnToStr start ->
  restoreTimeline read names version (hex8 tl ++ rest) ls stop target imm = timelineVerify read names version tl start target imm.
Proof.
  intros read names version tl rest start ls stop target imm Ht Hs ->. change (2 ^ 32) with two32 in Ht. change (2 ^ 64) with two64 in Hs. unfold restoreTimeline.
  assert (E : cvtZToUInt 16 (firstn 8 (hex8 tl ++ rest)) = Ok tl).
  { pose proof (hex8_length tl Ht) as L8. rewrite firstn_app, L8, Nat.sub_diag, firstn_O, app_nil_r, firstn_all2 by lia. apply cvtZToUInt_spec; [lia|]. split; [|lia]. destruct (hex8_is tl Ht) as (_ & _ & Hd). now apply digits_unsigned. }
  rewrite E. cbn [bind]. now rewrite lsn_roundtrip.
Qed.
Print Assumptions C28_restore.

(* "1\t0/3000000\tno recovery target specified\n\n# c\n2\t0/5000000" of timeline 3 *)
Definition hist3 : str := [49;9;48;47;51;48;48;48;48;48;48;9;110;111;10;10;35;32;99;10;50;9;48;47;53;48;48;48;48;48;48].
Definition fam (t : Z) : option (Z * Z) := if t =? 3 then Some (2, 83886080) else if t =? 2 then Some (1, 50331648) else None.
Definition rd (t : Z) : res str := if t =? 3 then Ok hist3 else if t =? 2 then Ok (firstn 14 hist3) else Err EFileMissing.
Definition nm (n : Z) : str := hex8 n ++ histSuffix.
Example C28_nontrivial :
  timelineVerify rd [nm 2; nm 3] 120000 1 50331647 None false = Ok Accept /\
  timelineVerify rd [nm 2; nm 3] 120000 1 50331648 None false = Ok (Forked 50331648) /\
  timelineVerify rd [nm 2; nm 3] 120000 2 60000000 (Some [48;120;51]) false = Ok Accept /\
  timelineVerify rd [nm 2; nm 3] 120000 4 1 (Some [51]) false = Ok NotInHistory /\
  timelineVerify rd [nm 2; nm 3] 120000 4 1 None false = Ok Accept /\
  timelineVerify rd [nm 2; nm 3] 120000 1 1 (Some [120]) false = Ok BadTarget /\
  timelineVerify rd [nm 2; nm 3] 120000 1 1 (Some [57]) false = Err EFileMissing.
Proof. vm_compute. repeat split; reflexivity. Qed.
Example C28_nontrivial_hyp : (exists text h, rd 3 = Ok text /\ spells text h /\ historyOf fam 3 h) /\
  (forall x, In x [nm 2; nm 3] -> histLike x -> exists n, historyName n x) /\ leaves fam 1 50331648 3.
Proof.
  split; [|split].
  - exists hist3, [(1, 50331648); (2, 83886080)]. split; [reflexivity|]. split; [apply parse_spec; vm_compute; reflexivity|].
    change [(1, 50331648); (2, 83886080)] with ([(1, 50331648)] ++ [(2, 83886080)]). apply ho_child; [reflexivity|]. change [(1, 50331648)] with ([] ++ [(1, 50331648)]). apply ho_child; [reflexivity|]. apply ho_root. reflexivity.
  - intros x [<-|[<-|[]]] _; [exists 2|exists 3]; eexists; (split; [apply hex8_is; unfold two32; lia|reflexivity]).
  - apply (lv_up fam 1 50331648 3 2 83886080); [reflexivity|]. apply lv_here. reflexivity.
Qed.

(** The stop LSN of the backup is not looked at: a backup that ended after the target timeline left its timeline is accepted, and no recovery to the
    target can make it consistent. *)
Theorem C28_stop_refuted : exists p read names tl start stop target h text, read 2 = Ok text /\ spells text h /\ historyOf p 2 h /\
  restoreTimeline read names 120000 (hex8 tl ++ hex8 0 ++ hex8 2) (lsnToStr start) (lsnToStr stop) (Some target) false = Ok Accept /\ numberTarget target 2 /\ tl <> 2 /\
  forall x, leaves p tl x 2 -> x < stop.
Proof.
  exists fam, rd, [nm 2], 1, 33554472, 58720256, [50], [(1, 50331648)], (firstn 14 hist3). split; [reflexivity|]. split; [apply parse_spec; vm_compute; reflexivity|].
  assert (H : historyOf fam 2 [(1, 50331648)]) by (change [(1, 50331648)] with ([] ++ [(1, 50331648)]); apply ho_child; [reflexivity|]; apply ho_root; reflexivity).
  split; [exact H|]. split; [vm_compute; reflexivity|]. split; [apply number_spec; vm_compute; reflexivity|]. split; [discriminate|].
  intros x Hx. apply (history_leaves fam 2 _ H) in Hx. destruct Hx as [[= <-]|[]]. lia.
Qed.
Print Assumptions C28_stop_refuted.
