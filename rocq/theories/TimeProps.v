(** Property C47: dates and times to epoch seconds. *)
From Verif Require Import Base Str NumSpec TimeModel TimeSpec TimeProof.
Open Scope Z_scope.

(** C47.  Every date has one day number. *)
Theorem C47_calendar : forall y m d, validDate y m d <-> exists n, dayNumber y m d n.
Proof. intros y m d. split; [intros H; eexists; now apply dayNumber_complete|intros (n & H); now apply dayNumber_sound in H]. Qed.
Print Assumptions C47_calendar.
Theorem C47_calendar_unique : forall y m d n n', dayNumber y m d n -> dayNumber y m d n' -> n = n'.
Proof. intros y m d n n' H H'. apply dayNumber_sound in H, H'. destruct H as [_ ->], H' as [_ ->]. reflexivity. Qed.
Print Assumptions C47_calendar_unique.

(** C47.  Through 2037 the epoch is computed and is right. *)
Theorem C47_epoch : forall y m d h mi s tz n, dayNumber y m d n -> validTime h mi s -> y <= 2037 -> - 86400 <= tz <= 86400 ->
  epochFromParts y m d h mi s tz = Ok (n * 86400 + h * 3600 + mi * 60 + s - tz).
Proof. intros y m d h mi s tz n Hn Ht Hy Hz. apply epoch_ok; auto. now apply dayNumber_sound in Hn. Qed.
Print Assumptions C47_epoch.
(** C47.  In any year, a result that comes out without overflow is right, and belongs to a valid date and time. *)
Theorem C47_epoch_sound : forall y m d h mi s tz e, epochFromParts y m d h mi s tz = Ok e ->
  validDate y m d /\ validTime h mi s /\ exists n, dayNumber y m d n /\ e = n * 86400 + h * 3600 + mi * 60 + s - tz.
Proof. exact epoch_sound. Qed.
Print Assumptions C47_epoch_sound.
Theorem C47_epoch_invalid : forall y m d h mi s tz, ~ (validDate y m d /\ validTime h mi s) -> epochFromParts y m d h mi s tz = Err EFormat.
Proof. exact epoch_invalid. Qed.
Print Assumptions C47_epoch_invalid.
(** C47.  From 2039 on the int arithmetic overflows (undefined behaviour in C) for every date. *)
Theorem C47_year_2039_refuted : forall y m d h mi s tz, validDate y m d -> validTime h mi s -> 2039 <= y -> - 86400 <= tz <= 86400 ->
  epochFromParts y m d h mi s tz = UB.
Proof. exact epoch_overflow. Qed.
Print Assumptions C47_year_2039_refuted.

(** C47.  A text with date, time, optional fraction and a time zone offset is accepted exactly when time and offset are valid, and then
    gives the right second. *)
Theorem C47_text : forall s e y m d h mi se dt f z sign hh mm n,
  dateTimeText dt y m d h mi se -> fractionText f z -> zoneText z sign hh mm -> s = dt ++ f ++ z ->
  y <= 2037 -> ~ (sign = -1 /\ hh = 0 /\ mm <> 0) -> dayNumber y m d n ->
  (cvtZToTime s = Ok (TEpoch e) <-> validTime h mi se /\ zoneOk sign hh mm /\ e = n * 86400 + h * 3600 + mi * 60 + se - zoneSeconds sign hh mm).
Proof. exact time_exact. Qed.
Print Assumptions C47_text.
(** C47.  Nothing else is accepted, and without offset the date and time go to mktime() unchanged. *)
Theorem C47_text_only : forall s r, cvtZToTime s = Ok r -> exists y m d h mi se dt f,
  dateTimeText dt y m d h mi se /\ validDate y m d /\ validTime h mi se /\
  ((s = dt ++ f /\ fractionText f [] /\ r = TLocal y m d h mi se) \/
   (exists z sign hh mm e, s = dt ++ f ++ z /\ fractionText f z /\ zoneText z sign hh mm /\ r = TEpoch e)).
Proof.
  intros s r H. apply cvtZToTime_spec in H. destruct H as (y & m & d & h & mi & se & dt & f & H1 & H2 & H3 & H4). exists y, m, d, h, mi, se, dt, f.
  split; [exact H1|]. split; [exact H2|]. split; [exact H3|]. destruct H4 as [H4|(z & sign & hh & mm & tz & e & A & B & C & _ & _ & D)]; [now left|right].
  exists z, sign, hh, mm, e. auto.
Qed.
Print Assumptions C47_text_only.
Theorem C47_text_local : forall dt f y m d h mi se, dateTimeText dt y m d h mi se -> fractionText f [] -> validDate y m d -> validTime h mi se ->
  cvtZToTime (dt ++ f) = Ok (TLocal y m d h mi se).
Proof. intros dt f y m d h mi se H1 H2 H3 H4. apply cvtZToTime_spec. exists y, m, d, h, mi, se, dt, f. auto 10. Qed.
Print Assumptions C47_text_local.

(** "2020-02-29 12:00:00" *)
Definition leapDay : str := [50;48;50;48;45;48;50;45;50;57;32;49;50;58;48;48;58;48;48].
(** C47.  The sign of an offset of less than an hour is lost: -00:30 is taken as +00:30. *)
Theorem C47_zone_sign_refuted : exists e, cvtZToTime (leapDay ++ [45;48;48;58;51;48]) = Ok (TEpoch e) /\ cvtZToTime (leapDay ++ [43;48;48;58;51;48]) = Ok (TEpoch e).
Proof. eexists. split; vm_compute; reflexivity. Qed.
Print Assumptions C47_zone_sign_refuted.
(** C47.  Offset minutes of 60 and more are accepted: +05:75. *)
Theorem C47_zone_minute_refuted : exists e, cvtZToTime (leapDay ++ [43;48;53;58;55;53]) = Ok (TEpoch e).
Proof. eexists. vm_compute. reflexivity. Qed.
Print Assumptions C47_zone_minute_refuted.

Example C47_nontrivial : validDate 2020 2 29 /\ ~ validDate 2021 2 29 /\ cvtZToTime (leapDay ++ [46;49;50;51;45;48;55;58;51;48]) = Ok (TEpoch 1583004600).
Proof.
  split; [|split].
  - split; [lia|]. exists 29. split; [|lia]. apply ml29. split; [exists 505; reflexivity|]. left. intros (k & H). lia.
  - intros H. apply datePartsValid_spec in H. discriminate H.
  - vm_compute. reflexivity.
Qed.
