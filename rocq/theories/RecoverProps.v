(** C79: the recovery settings of a restore are those of its options.
    C80: they are written so that PostgreSQL reads them, and old targets do not interfere. *)
From Verif Require Import Base Str LsnModel RegModel RegNameModel RegSpec JsonModel IniModel SpoolModel SpoolSpec SpoolProof HttpModel HttpSpec HttpProof RecoverModel RecoverSpec RecoverProof RecoverProof2.
From Coq Require Import String List.
Open Scope Z_scope. Open Scope list_scope.

(** The settings are exactly those wanted, each once.  The command line of archive-get has at least the name of the command. *)
Theorem C79_settings o v r : (forall kv, oUser o = Some kv -> NoDup (map fst kv)) -> oType o <> TNone /\ oType o <> TPreserve -> oParam o <> [] -> recoveryOption o v = Ok r ->
  NoDup (map fst r) /\ forall n x, In (n, x) r <-> wanted o v n x.
Proof. intros U R P H. now apply option_spec. Qed.
Print Assumptions C79_settings.
(** No name is wanted with two values. *)
Theorem C79_one o v n x y : (forall kv, oUser o = Some kv -> NoDup (map fst kv)) -> oType o <> TNone /\ oType o <> TPreserve -> oParam o <> [] -> oArchivePreserve o = true \/ 120000 <= v ->
  wanted o v n x -> wanted o v n y -> x = y.
Proof.
  intros U R P A X Y. destruct (option_res o v) as [((r & H) & _)|(_ & K1 & K2)]; [|exfalso; destruct A; [congruence|lia]]. destruct (option_spec o v r U R P H) as (ND & W). apply W in X. apply W in Y.
  apply UriProof2.kvGet_some in X; [|exact ND]. apply UriProof2.kvGet_some in Y; [|exact ND]. congruence.
Qed.
Print Assumptions C79_one.
(** The one error: archive mode can just be set from PostgreSQL 12 on. *)
Theorem C79_error o v : (exists r, recoveryOption o v = Ok r) /\ (oArchivePreserve o = true \/ 120000 <= v) \/ recoveryOption o v = Err EOptionInvalidValue /\ oArchivePreserve o = false /\ v < 120000.
Proof. apply option_res. Qed.
Print Assumptions C79_error.
Definition exOpts : opts :=
  mkOpts TTime (Some [(txt "primary-conninfo", txt "a"); (txt "primary_conninfo", txt "b"); (txt "recovery-target-action", txt "x")]) true (txt "pgbackrest") [txt "--stanza=s"; txt "archive-get"]
    (txt "2020-01-01") (Some true) (Some (txt "promote")) None.
Example C79_nontrivial :
  recoveryOption exOpts 130000 = Ok [(txt "primary_conninfo", txt "b"); (txt "recovery_target_action", txt "promote"); (txt "restore_command", txt "pgbackrest --stanza=s archive-get %f ""%p""");
    (txt "recovery_target_time", txt "2020-01-01"); (txt "recovery_target_inclusive", txt "false")] /\
  (forall kv, oUser exOpts = Some kv -> NoDup (map fst kv)) /\ (oType exOpts <> TNone /\ oType exOpts <> TPreserve) /\ oParam exOpts <> [].
Proof.
  split; [vm_compute; reflexivity|]. split; [|split; [split|]; discriminate]. intros kv [= <-]. repeat constructor; cbn [map fst In]; intuition discriminate.
Qed.

(** Nothing is written if recovery is to be preserved. *)
Theorem C80_preserve o v label old : oType o = TPreserve -> recoveryWrite o v label old = Ok (mkWritten None None false false).
Proof. intros T. unfold recoveryWrite. rewrite T. reflexivity. Qed.
Print Assumptions C80_preserve.
(** Before PostgreSQL 12 just recovery.conf is written, unless there is no recovery. *)
Theorem C80_before12 o v label old w : v < 120000 -> recoveryWrite o v label old = Ok w -> oType o <> TPreserve ->
  wAuto w = None /\ wStandby w = false /\ wRecovery w = false /\ (oType o = TNone -> wConf w = None) /\
  (oType o <> TNone -> ~ In 10 label -> exists r c, recoveryOption o v = Ok r /\ wConf w = Some c /\
    (Forall noLf r -> linesOf c ((txt "# Recovery settings generated by pgBackRest restore on " ++ label) :: map lineOf r ++ [[]]))).
Proof.
  intros V H T. unfold recoveryWrite, pgVersion12 in H. apply typeIs_ne in T. rewrite T in H. destruct (Z.leb_spec 120000 v); [lia|]. unfold writeConf in H. destruct (typeIs (oType o) TNone) eqn:N.
  - injection H as <-. apply typeIs_eq in N. repeat split; congruence.
  - apply typeIs_ne in N. destruct (recoveryConf o v label) as [c| |] eqn:C; [|discriminate..]. cbn [bind] in H. injection H as <-. cbn [wAuto wConf wStandby wRecovery]. repeat split; [congruence|]. intros _ NL.
    destruct (conf_text _ _ _ _ C NL) as (r & R & L). exists r, c. auto.
Qed.
Print Assumptions C80_before12.
(** From PostgreSQL 12 on just one signal file is there, and the right one. *)
Theorem C80_signal o v label old w : 120000 <= v -> recoveryWrite o v label old = Ok w ->
  wConf w = None /\ (wStandby w = true <-> oType o = TStandby) /\ (wRecovery w = true <-> oType o <> TStandby /\ oType o <> TNone /\ oType o <> TPreserve).
Proof.
  intros V H. destruct (typeIs (oType o) TPreserve) eqn:T2; [apply typeIs_eq in T2; rewrite C80_preserve in H by exact T2; injection H as <-; cbn; intuition congruence|].
  destruct (typeIs (oType o) TNone) eqn:T1.
  - apply typeIs_eq in T1 as T. unfold recoveryWrite in H. rewrite T2 in H. unfold pgVersion12 in H. destruct (Z.leb_spec 120000 v); [|lia]. unfold writeAutoConf in H. rewrite T1 in H.
    destruct (oldContent o label old); [|discriminate..]. cbn [bind] in H. injection H as <-. cbn [wConf wStandby wRecovery]. rewrite T. change (typeIs TNone TStandby) with false. change (typeIs TNone TNone) with true. cbn [negb andb]. intuition congruence.
  - apply typeIs_ne in T1, T2. destruct (auto_spec o v label old w V (conj T1 T2) H) as (A & B & C & _). split; [exact A|]. split; [exact B|]. rewrite C. intuition.
Qed.
Print Assumptions C80_signal.
(** The new postgresql.auto.conf: the old lines with old targets commented out and white space at both ends removed, a blank line, and the settings. *)
Theorem C80_lines o v label c w : 120000 <= v -> oType o <> TNone /\ oType o <> TPreserve -> ~ In 10 label -> recoveryWrite o v label (Some c) = Ok w ->
  exists r text t c0 ol new a b, recoveryOption o v = Ok r /\ wAuto w = Some text /\ zText c c0 /\ linesOf c0 ol /\ Forall2 (replaced label) ol new /\ linesOf (a ++ t ++ b) new /\ blank a /\ blank b /\ trimmed t /\
    (Forall noLf r -> forall lt, linesOf t lt -> linesOf text (lt ++ [] :: (txt "# Recovery settings generated by pgBackRest restore on " ++ label) :: map lineOf r ++ [[]])).
Proof.
  intros V R NL H. destruct (auto_spec o v label (Some c) w V R H) as (_ & _ & _ & _ & cf & o2 & CF & OC & W). destruct (conf_text _ _ _ _ CF NL) as (r & RO & L).
  unfold oldContent in OC. rewrite exp_is in OC. cbn [bind] in OC. destruct R as (R1 & R2). apply typeIs_ne in R1. rewrite R1 in OC. injection OC as <-.
  destruct (old_lines label (cz c) NL) as (ol & new & LO & F & LN). set (j := joinLines _) in *. destruct (trim_trimmed j) as (a & b & E & Ba & Bb & T).
  exists r, ((strTrim j ++ [10; 10]) ++ cf), (strTrim j), (cz c), ol, new, a, b. split; [exact RO|]. split; [exact W|]. split; [apply cz_spec|]. split; [exact LO|]. split; [exact F|]. split; [now rewrite <- E|]. split; [exact Ba|]. split; [exact Bb|]. split; [exact T|].
  intros NF lt LT. rewrite <- app_assoc. cbn [app]. apply lines_app; [exact LT|]. apply (li_more [] cf); [intros []|now apply L].
Qed.
Print Assumptions C80_lines.
Theorem C80_missing o v label w : 120000 <= v -> oType o <> TNone /\ oType o <> TPreserve -> ~ In 10 label -> recoveryWrite o v label None = Ok w ->
  exists r text, recoveryOption o v = Ok r /\ wAuto w = Some text /\ (Forall noLf r -> linesOf text ((txt "# Recovery settings generated by pgBackRest restore on " ++ label) :: map lineOf r ++ [[]])).
Proof.
  intros V R NL H. destruct (auto_spec o v label None w V R H) as (_ & _ & _ & _ & cf & o2 & CF & OC & W). destruct (conf_text _ _ _ _ CF NL) as (r & RO & L). injection OC as <-. exists r, cf. auto.
Qed.
Print Assumptions C80_missing.
(** Without recovery old targets are still commented out, and nothing else is changed. *)
Theorem C80_none o v label c w : 120000 <= v -> oType o = TNone -> ~ In 10 label -> recoveryWrite o v label (Some c) = Ok w ->
  exists text c0 ol new, wAuto w = Some text /\ zText c c0 /\ linesOf c0 ol /\ Forall2 (replaced label) ol new /\ linesOf text new.
Proof.
  intros V T NL H. unfold recoveryWrite, writeAutoConf, oldContent, pgVersion12 in H. rewrite T in H. cbn [typeIs] in H. change (typeIs TNone TPreserve) with false in H. change (typeIs TNone TNone) with true in H. destruct (Z.leb_spec 120000 v); [|lia].
  rewrite exp_is in H. cbn [bind] in H. injection H as <-. destruct (old_lines label (cz c) NL) as (ol & new & LO & F & LN). eexists _, (cz c), ol, new. cbn [wAuto]. split; [reflexivity|]. split; [apply cz_spec|]. auto.
Qed.
Print Assumptions C80_none.
(** Every target in the new file is one of the new settings, if there is no carriage return in the old one. *)
Theorem C80_targets o v label old w text l : 120000 <= v -> ~ In 10 label -> ~ In 13 label -> (forall c, old = Some c -> ~ In 13 c) -> recoveryWrite o v label old = Ok w -> wAuto w = Some text ->
  (forall r, recoveryOption o v = Ok r -> Forall noLf r) -> lineIn text l -> targetLine l -> oType o <> TNone /\ exists r p, recoveryOption o v = Ok r /\ In p r /\ l = lineOf p.
Proof.
  intros V NL NC N13 H W NF LI T.
  assert (TP : oType o <> TPreserve) by (intros K; rewrite C80_preserve in H by exact K; injection H as <-; discriminate).
  destruct (typeIs (oType o) TNone) eqn:T1.
  - exfalso. apply typeIs_eq in T1. destruct old as [c|].
    + destruct (C80_none o v label c w V T1 NL H) as (text2 & c0 & ol & new & W2 & _ & _ & F & LN). assert (text2 = text) by congruence. subst text2. apply (proj1 (lines_in _ _ LN l)) in LI. now apply (replaced_all _ _ _ F l LI).
    + unfold recoveryWrite, writeAutoConf, oldContent, pgVersion12 in H. rewrite T1 in H. change (typeIs TNone TPreserve) with false in H. change (typeIs TNone TNone) with true in H. destruct (Z.leb_spec 120000 v); [|lia]. cbn [bind] in H. injection H as <-. injection W as <-.
      assert (L0 : linesOf [] [[]]) by (constructor; intros []). apply (proj1 (lines_in _ _ L0 l)) in LI. destruct LI as [<-|[]]. now apply empty_target.
  - apply typeIs_ne in T1. split; [exact T1|]. assert (HL : ~ targetLine (txt "# Recovery settings generated by pgBackRest restore on " ++ label)) by (now apply header_noLf).
    assert (FIN : forall r, In l ((txt "# Recovery settings generated by pgBackRest restore on " ++ label) :: map lineOf r ++ [[]]) -> exists p, In p r /\ l = lineOf p).
    { intros r [<-|I]; [contradiction|]. apply in_app_iff in I. destruct I as [I|[<-|[]]]; [|exfalso; now apply empty_target]. apply in_map_iff in I. destruct I as (p & <- & I). exists p. auto. }
    destruct old as [c|].
    + specialize (N13 c eq_refl). destruct (C80_lines o v label c w V (conj T1 TP) NL H) as (r & text2 & t & c0 & ol & new & a & b & RO & W2 & Zc & LO & F & LN & Ba & Bb & _ & LL). assert (text2 = text) by congruence. subst text2.
      destruct (lines_exist t) as (lt & LT). specialize (LL (NF r RO) lt LT). apply (proj1 (lines_in _ _ LL l)) in LI. apply in_app_iff in LI.
      assert (N13c : ~ In 13 (a ++ t ++ b)).
      { assert (NO : forall x, In x ol -> ~ In 13 x). { intros x I K. assert (K2 : In 13 c0). { clear -LO I K. induction LO as [y N|y u ls N HL IH]; destruct I as [<-|I]; [exact K|destruct I|apply in_app_iff; now left|apply in_app_iff; right; right; now apply IH]. }
          destruct Zc as (_ & [-> |(u & ->)]); apply N13; [exact K2|apply in_app_iff; now left]. }
        assert (NN : forall x, In x new -> ~ In 13 x). { clear -F NO NC. induction F as [|x y ol new R F IH]; intros z []; [subst z|apply IH; [intros u I; apply NO; now right|assumption]].
          destruct R as [(_ & ->)|(_ & ->)]; [|apply NO; now left]. rewrite !in_app_iff. intros [K|[K|[K|K]]]; [revert K; vm_compute; intuition congruence|contradiction|revert K; vm_compute; intuition congruence|]. revert K. apply NO. now left. }
        clear -LN NN. induction LN as [y N|y u ls N HL IH]; [apply NN; now left|]. rewrite in_app_iff. intros [K|[K|K]]; [revert K; apply NN; now left|discriminate|]. revert K. apply IH. intros x I. apply NN. now right. }
      destruct LI as [LI|[<-|LI]]; [exfalso|exfalso; now apply empty_target|destruct (FIN r LI) as (p & I & E); exists r, p; auto].
      revert T. apply (trim_targets a t b Ba Bb N13c); [|exists lt; auto]. intros m Lm. apply (proj1 (lines_in _ _ LN m)) in Lm. eapply replaced_all; eauto.
    + destruct (C80_missing o v label w V (conj T1 TP) NL H) as (r & text2 & RO & W2 & LL). assert (text2 = text) by congruence. subst text2. specialize (LL (NF r RO)). apply (proj1 (lines_in _ _ LL l)) in LI.
      destruct (FIN r LI) as (p & I & E). exists r, p. auto.
Qed.
Print Assumptions C80_targets.
(** All errors. *)
Theorem C80_errors o v label old : (exists w, recoveryWrite o v label old = Ok w) \/
  recoveryWrite o v label old = Err EOptionInvalidValue /\ oType o <> TNone /\ oType o <> TPreserve /\
    ((v < 120000 /\ oArchivePreserve o = false) \/ (120000 <= v /\ exists kv k x, oUser o = Some kv /\ In (k, x) kv /\ sameName k (txt "standby_mode"))).
Proof.
  unfold recoveryWrite, pgVersion12. destruct (typeIs (oType o) TPreserve) eqn:T2; [eauto|]. apply typeIs_ne in T2. destruct (Z.leb_spec 120000 v).
  - unfold writeAutoConf. assert (OC : exists t, oldContent o label old = Ok t) by (unfold oldContent; destruct old; [rewrite exp_is; cbn [bind]|]; eauto). destruct OC as (t & ->). cbn [bind]. destruct (typeIs (oType o) TNone) eqn:T1; cbn [bind]; [eauto|]. apply typeIs_ne in T1.
    destruct (existsb _ _) eqn:E; cbn [bind]; [apply standby_spec in E; right; repeat (split; [assumption || reflexivity|]); right; split; [assumption|exact E]|]. unfold recoveryConf. destruct (option_res o v) as [((r & ->) & _)|(_ & _ & K)]; [cbn [bind]; eauto|lia].
  - unfold writeConf. destruct (typeIs (oType o) TNone) eqn:T1; [eauto|]. apply typeIs_ne in T1. unfold recoveryConf. destruct (option_res o v) as [((r & ->) & _)|(-> & A & K)]; cbn [bind]; [eauto|]. right. repeat (split; [assumption || reflexivity|]). left. split; assumption.
Qed.
Print Assumptions C80_errors.
Theorem C80_standby_error o v label old : 120000 <= v -> oType o <> TNone -> oType o <> TPreserve -> (exists kv k x, oUser o = Some kv /\ In (k, x) kv /\ sameName k (txt "standby_mode")) ->
  recoveryWrite o v label old = Err EOptionInvalidValue.
Proof.
  intros V T1 T2 S. destruct (C80_errors o v label old) as [(w & H)|(H & _)]; [|exact H]. destruct (auto_spec o v label old w V (conj T1 T2) H) as (_ & _ & _ & K & _). contradiction.
Qed.
Print Assumptions C80_standby_error.
(** PostgreSQL reads the value that was written, if it needs no quoting, and does not otherwise. *)
Theorem C80_value x y : (pgQuoted (x ++ txt "'") x <-> clean x) /\ (clean x -> pgQuoted (x ++ txt "'") y -> y = x).
Proof. change (txt "'") with [39]. split; [symmetry; apply clean_quoted|apply clean_value]. Qed.
Print Assumptions C80_value.
(** A quote in a value is not doubled: the file cannot be read. *)
Theorem C80_quote_refuted : exists o w, recoveryWrite o 130000 (txt "now") None = Ok w /\ oTarget o = txt "o'clock" /\ oType o = TName /\
  (exists text, wAuto w = Some text /\ lineIn text (txt "recovery_target_name = '" ++ oTarget o ++ txt "'")) /\ forall y, ~ pgQuoted (oTarget o ++ txt "'") y.
Proof.
  exists (mkOpts TName None true (txt "p") [txt "archive-get"] (txt "o'clock") None None None). eexists. split; [vm_compute; reflexivity|]. split; [reflexivity|]. split; [reflexivity|]. split.
  - eexists. split; [reflexivity|]. eexists. split; [apply lines_split; reflexivity|]. vm_compute. auto.
  - intros y H. cbn in H. inversion H as [|? ? ? ? ? ? H2| |]; subst. inversion H2; subst; congruence.
Qed.
Print Assumptions C80_quote_refuted.
(** Names of settings are the same in any letter case for PostgreSQL, and the equal sign can be left out: such targets stay. *)
Theorem C80_old_refuted : exists o w text, recoveryWrite o 130000 (txt "now") (Some (txt "Recovery_Target_Time = 'x'" ++ [10] ++ txt "recovery_target_time 'x'" ++ [10])) = Ok w /\ wAuto w = Some text /\
  lineIn text (txt "Recovery_Target_Time = 'x'") /\ lineIn text (txt "recovery_target_time 'x'").
Proof.
  exists (mkOpts TImmediate None true (txt "p") [txt "archive-get"] [] None None None). eexists _, _. split; [vm_compute; reflexivity|]. split; [reflexivity|].
  split; (eexists; split; [apply lines_split; reflexivity|]; vm_compute; auto).
Qed.
Print Assumptions C80_old_refuted.
Example C80_nontrivial :
  let old := txt "# note" ++ [10] ++ txt " recovery_target_time = 'x'" ++ [10] ++ txt "a = '1'" ++ [10; 10] in
  recoveryWrite (mkOpts TImmediate None true (txt "p") [txt "archive-get"] [] None None None) 130000 (txt "now") (Some old) =
    Ok (mkWritten (Some (joinLines [txt "# note"; txt "# Removed by pgBackRest restore on now #  recovery_target_time = 'x'"; txt "a = '1'"; []; txt "# Recovery settings generated by pgBackRest restore on now";
      txt "restore_command = 'p archive-get %f ""%p""'"; txt "recovery_target = 'immediate'"; txt "recovery_target_timeline = 'current'"; []])) None false true) /\
  targetLine (txt " recovery_target_time = 'x'") /\ ~ In 10 (txt "now") /\ ~ In 13 old.
Proof.
  split; [vm_compute; reflexivity|]. split; [|vm_compute; intuition congruence]. exists (txt " "), (txt "recovery_target_time"), (txt " "), (txt " 'x'"). split; [reflexivity|]. split; [repeat constructor|]. split; [repeat constructor|].
  unfold targetNames. cbn [In]. auto 10.
Qed.
