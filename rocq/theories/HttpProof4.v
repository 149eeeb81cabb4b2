(** Proofs for HTTP responses: status and headers. *)
From Verif Require Import Base Str ConvertModel NumModel NumSpec NumProof SpoolModel SpoolSpec SpoolProof TimelineProof RegNameModel OptSizeModel HttpModel HttpSpec HttpProof HttpProof2 HttpProof3.
From Coq Require Import String List.
Open Scope Z_scope. Open Scope list_scope.

(** * Status *)
Lemma digits_bound s v : digitsIs 10 s v -> 0 <= v < 10 ^ Z.of_nat (length s).
Proof.
  induction 1 as [c d D L|s v c d _ IH D L].
  - cbn. destruct D; lia.
  - rewrite app_length, Nat2Z.inj_add, Z.pow_add_r by lia. cbn [length Z.of_nat Pos.of_succ_nat]. change (10 ^ 1) with 10. destruct D; nia.
Qed.
Lemma code_bound num code : length num = 3%nat -> unsignedText 10 num code -> 0 <= code < 1000.
Proof.
  intros L (sg & p & ds & _ & _ & -> & D). apply digits_bound in D. rewrite !app_length in L. assert (Z.of_nat (length ds) <= 3) by lia.
  assert (10 ^ Z.of_nat (length ds) <= 10 ^ 3) by (apply Z.pow_le_mono_r; lia). change (10 ^ 3) with 1000 in *. lia.
Qed.
Lemma begins_exact v s : length v = 8%nat -> strBeginsWith s v = true <-> exists t, s = v ++ t.
Proof.
  intros L. unfold strBeginsWith. rewrite strEqb_eq. split.
  - intros E. exists (skipn (length v) s). rewrite <- E at 1. symmetry. apply firstn_skipn.
  - intros (t & ->). apply first_mid.
Qed.
Lemma status_spec max s code reason v10 rest : statusRead max s = Ok (code, reason, v10, rest) <-> statusLine max s code reason v10 rest.
Proof.
  unfold statusRead, statusLine. split.
  - destruct (readLine max s) as [[l s1]| |] eqn:RL; [|discriminate..]. cbn [bind]. apply readLine_spec in RL. destruct RL as (-> & NL & LL).
    destruct (strEndsWith l [13]) eqn:EW; cbn [negb]; [|discriminate]. apply endsWith_ex in EW. set (st := stripExt [13] l) in *. clearbody st. subst l.
    replace (length (st ++ [13%Z]) - 1)%nat with (length st) by (rewrite app_length; cbn; lia). rewrite first_mid.
    destruct (Nat.ltb_spec (length st) 13) as [|L13]; [discriminate|]. intros H.
    assert (V : exists v, v = (if strBeginsWith st (txt "HTTP/1.0") then txt "HTTP/1.0" else txt "HTTP/1.1") /\ length v = 8%nat /\ exists t, st = v ++ t).
    { destruct (strBeginsWith st (txt "HTTP/1.0")) eqn:B0; cbn [negb andb] in H.
      - eexists. split; [reflexivity|]. split; [reflexivity|]. apply begins_exact in B0; [exact B0|reflexivity].
      - destruct (strBeginsWith st (txt "HTTP/1.1")) eqn:B1; cbn [negb] in H; [|discriminate]. eexists. split; [reflexivity|]. split; [reflexivity|].
        apply begins_exact in B1; [exact B1|reflexivity]. }
    destruct V as (v & Ev & Lv & t & ->). destruct (negb _ && negb _)%bool; [discriminate|]. rewrite app_length, Lv in L13.
    destruct t as [|c t]; [cbn in L13; lia|]. replace (skipn 9 (v ++ c :: t)) with t in H by (change 9%nat with (S 8); rewrite <- Lv; symmetry; apply skip_mid).
    destruct (strChrZ t 32) as [i|] eqn:CH; [|discriminate]. destruct (Nat.eq_dec i 3) as [->|I3]; [|destruct i as [|[|[|[|i]]]]; congruence || discriminate].
    apply chrZ_some in CH. destruct CH as (num & rs & -> & N32 & N0 & _ & Ln). rewrite <- Ln in H at 1. rewrite first_mid in H.
    replace (skipn 4 (num ++ 32 :: rs)) with rs in H by (change 4%nat with (S 3); rewrite <- Ln; symmetry; apply skip_mid).
    destruct (cvtZToUInt 10 num) as [cd| |] eqn:CV; [|discriminate..]. cbn [bind] in H. injection H as <- <- Hv <-. apply cvtZToUInt_spec in CV; [|lia].
    rewrite Hv in Ev. exists c, num. split; [destruct v10; rewrite <- Ev; rewrite <- !app_assoc; cbn [app]; rewrite <- !app_assoc; reflexivity|].
    rewrite !in_app_iff in NL. cbn [In] in NL. rewrite !in_app_iff in NL. cbn [In] in NL. repeat split; try tauto.
    rewrite !app_length in LL. cbn [length] in LL. rewrite app_length in LL. cbn [length] in LL. lia.
  - intros (c & num & Es & C10 & NR & LM & Ln & U). set (v := if v10 then txt "HTTP/1.0" else txt "HTTP/1.1").
    assert (Lv : length v = 8%nat) by (unfold v; destruct v10; reflexivity). assert (NV : ~ In 10 v) by (unfold v; destruct v10; cbn; lia).
    destruct (unsigned_chars 10 num code) as (F & _); [lia|exact U|]. destruct (numChar_trimmed num F) as (_ & N0 & _ & N32 & N10).
    set (st := v ++ c :: num ++ 32 :: reason). assert (Est : s = (st ++ [13]) ++ 10 :: rest).
    { rewrite Es. unfold st, v. destruct v10; rewrite <- !app_assoc; cbn [app]; rewrite <- !app_assoc; reflexivity. }
    assert (Lst : length st = (13 + length reason)%nat) by (unfold st; rewrite app_length; cbn [length]; rewrite app_length; cbn [length]; lia).
    rewrite Est. rewrite (proj2 (readLine_spec max ((st ++ [13]) ++ 10 :: rest) (st ++ [13]) rest)).
    2:{ split; [reflexivity|]. split; [|rewrite app_length; cbn [length]; lia]. unfold st. rewrite !in_app_iff. cbn [In]. rewrite in_app_iff. cbn [In]. intuition lia. }
    cbn [bind]. rewrite endsWith_app. cbn [negb]. replace (length (st ++ [13%Z]) - 1)%nat with (length st) by (rewrite app_length; cbn; lia). rewrite first_mid.
    destruct (Nat.ltb_spec (length st) 13); [lia|]. assert (BV : strBeginsWith st v = true) by (apply begins_exact; [exact Lv|unfold st; eauto]).
    assert (B0 : strBeginsWith st (txt "HTTP/1.0") = v10).
    { unfold v in BV. destruct v10; [exact BV|]. destruct (strBeginsWith st (txt "HTTP/1.0")) eqn:B; [|reflexivity]. unfold strBeginsWith in *. apply strEqb_eq in B. apply strEqb_eq in BV.
      change (length (txt "HTTP/1.0")) with 8%nat in B. change (length (txt "HTTP/1.1")) with 8%nat in BV. rewrite B in BV. discriminate. }
    rewrite B0. replace (negb v10 && negb (strBeginsWith st (txt "HTTP/1.1")))%bool with false by (unfold v in BV; destruct v10; [reflexivity|now rewrite BV]).
    replace (skipn 9 st) with (num ++ 32 :: reason) by (change 9%nat with (S 8); rewrite <- Lv; unfold st; now rewrite skip_mid).
    rewrite (proj2 (chrZ_some (num ++ 32 :: reason) 32 3)) by (exists num, reason; repeat split; auto; lia).
    rewrite <- Ln at 1. rewrite first_mid. rewrite (proj2 (cvtZToUInt_spec 10 ltac:(lia) num code)) by (split; [exact U|]; apply code_bound in U; [unfold two32; lia|exact Ln]).
    cbn [bind]. replace (skipn 4 (num ++ 32 :: reason)) with reason by (change 4%nat with (S 3); rewrite <- Ln; now rewrite skip_mid). reflexivity.
Qed.

(** * One header *)
Definition split1 (h : str) : option (str * str) :=
  match strChrZ h 58 with None => None | Some i => Some (strLower (strTrim (firstn i h)), strTrim (skipn (S i) h)) end.
Definition upd (r : resp) (key value : str) : res resp :=
  let* r :=
    if strEqb key (txt "transfer-encoding") then
      if strEqb (strLower value) (txt "chunked") then Ok (mkResp true (rSizeSet r) (rSize r) (rRemaining r) (rClose r) (rEof r)) else Err EFormat
    else Ok r in
  let* r :=
    if strEqb key (txt "content-length") then
      let* n := cvtZToUInt64 10 (cz value) in Ok (mkResp (rChunked r) true n n (rClose r) (rEof r))
    else Ok r in
  Ok (if strEqb key (txt "connection") && strEqb (strLower value) (txt "close")
      then mkResp (rChunked r) (rSizeSet r) (rSize r) (rRemaining r) true (rEof r) else r).
Lemma header1_split r h : header1 r h = match split1 h with None => Err EFormat | Some (k, v) => upd r k v end.
Proof. unfold header1, split1, upd. destruct (strChrZ h 58); reflexivity. Qed.
Lemma lower_is s : strLower s = map lowerCase s.
Proof. reflexivity. Qed.
Lemma key_side a K b : blank a -> blank b -> trimmed K -> exists a1 P, a ++ K ++ b = a1 ++ P /\ blank a1 /\ strTrim P = K /\ (forall c r, P = c :: r -> ~ white c) /\ (forall c, In c P -> In c K \/ white c).
Proof.
  intros A B T. destruct K as [|x K].
  - exists (a ++ b), []. rewrite app_nil_r. split; [reflexivity|]. split; [now apply Forall_app|]. split; [reflexivity|]. split; [discriminate|intros c []].
  - exists a, ((x :: K) ++ b). split; [reflexivity|]. split; [exact A|]. split; [apply (trim_is [] (x :: K) b); [constructor|exact B|exact T]|].
    split; [intros c r E; injection E as -> _; eapply (proj1 T); reflexivity|]. intros c I. apply in_app_iff in I. destruct I as [I|I]; [now left|]. right. unfold blank in B. rewrite Forall_forall in B. auto.
Qed.
Lemma value_side d v e : blank d -> blank e -> trimmed v -> exists Q e1, d ++ v ++ e = Q ++ e1 /\ blank e1 /\ strTrim Q = v /\ (forall c r, Q = r ++ [c] -> ~ white c).
Proof.
  intros D E T. destruct v as [|x v].
  - exists [], (d ++ e). split; [reflexivity|]. split; [now apply Forall_app|]. split; [reflexivity|]. intros c r H. destruct r; discriminate.
  - exists (d ++ x :: v), e. split; [now rewrite <- app_assoc|]. split; [exact E|]. split.
    + replace (d ++ x :: v) with (d ++ (x :: v) ++ []) by (now rewrite app_nil_r). apply trim_is; [exact D|constructor|exact T].
    + intros c r H. destruct (exists_last (l := x :: v)) as (u & y & Eu); [discriminate|]. rewrite Eu, app_assoc in H. apply app_inj_tail in H. destruct H as (_ & <-). eapply (proj2 T). exact Eu.
Qed.
Lemma split1_spec l k v : split1 (strTrim l) = Some (k, v) <-> headerLine l k v.
Proof.
  unfold split1, headerLine. split.
  - destruct (trim_trimmed l) as (a & b & El & A & B & _). set (h := strTrim l) in *. clearbody h. destruct (strChrZ h 58) as [i|] eqn:E; [|discriminate].
    apply chrZ_some in E. destruct E as (x & y & -> & N & N0 & _ & <-). rewrite first_mid, skip_mid. intros [= <- <-].
    destruct (trim_trimmed x) as (a2 & b2 & Ex & A2 & B2 & TX). destruct (trim_trimmed y) as (d & e & Ey & D & E2 & TY).
    set (K := strTrim x) in *. set (v0 := strTrim y) in *. clearbody K v0. exists (a ++ a2), K, b2, d, (e ++ b). subst l x y.
    split; [rewrite <- !app_assoc; cbn [app]; rewrite <- !app_assoc; reflexivity|]. rewrite !in_app_iff in *.
    repeat split; try (now apply Forall_app); try apply TX; try apply TY; auto; tauto.
  - intros (a & K & b & d & e & -> & A & B & D & E & TK & TV & N & N0 & ->).
    destruct (key_side a K b A B TK) as (a1 & P & EP & A1 & TP & FP & IP). destruct (value_side d v e D E TV) as (Q & e1 & EQ & E1 & TQ & LQ).
    replace (a ++ K ++ b ++ 58 :: d ++ v ++ e) with (a1 ++ (P ++ 58 :: Q) ++ e1).
    2:{ rewrite EQ. rewrite <- app_assoc. cbn [app]. rewrite app_assoc, <- EP. now rewrite <- !app_assoc. }
    rewrite trim_is; [|exact A1|exact E1|].
    2:{ split.
        - intros c r H. destruct P as [|y P]; [injection H as <- _; unfold white; lia|]. injection H as -> _. eapply FP. reflexivity.
        - intros c r H. destruct Q as [|y Q].
          + apply app_inj_tail in H. destruct H as (_ & <-). unfold white. lia.
          + destruct (exists_last (l := y :: Q)) as (u & z & Eu); [discriminate|]. rewrite Eu in H. change (58 :: u ++ [z]) with ((58 :: u) ++ [z]) in H. rewrite app_assoc in H. apply app_inj_tail in H.
            destruct H as (_ & <-). eapply LQ. exact Eu. }
    rewrite (proj2 (chrZ_some (P ++ 58 :: Q) 58 (length P))).
    2:{ exists P, Q. split; [reflexivity|]. repeat split; [|intros I; apply IP in I; unfold white in I; intuition lia|lia]. intros I. apply IP in I. unfold white in I. intuition lia. }
    rewrite first_mid, skip_mid, TP, TQ. reflexivity.
Qed.
Lemma headerLine_notblank l k v : headerLine l k v -> ~ blank l.
Proof. intros (a & K & b & d & e & -> & _) B. unfold blank in B. rewrite Forall_forall in B. specialize (B 58). assert (white 58) by (apply B; rewrite !in_app_iff; right; right; right; now left). unfold white in *. lia. Qed.

(** * All headers *)
Fixpoint updAll (r : resp) (hs : list (str * str)) : res resp :=
  match hs with [] => Ok r | (k, v) :: hs => let* r := upd r k v in updAll r hs end.
Lemma loop_headers max fuel : forall r s r1 rest, (length s < fuel)%nat -> headerLoop max fuel r s = Ok (r1, rest) <-> exists hs, headerText max s hs rest /\ updAll r hs = Ok r1.
Proof.
  induction fuel as [|fuel IH]; intros r s r1 rest F; [lia|]. cbn [headerLoop]. split.
  - destruct (readLine max s) as [[l s1]| |] eqn:RL; [|discriminate..]. cbn [bind]. pose proof (readLine_len _ _ _ _ RL) as LL. apply readLine_spec in RL. destruct RL as (-> & O).
    destruct (strTrim l) as [|x t] eqn:T.
    + intros [= <- <-]. exists []. split; [|reflexivity]. constructor; [exact O|]. now apply trim_blank.
    + rewrite header1_split, <- T. destruct (split1 (strTrim l)) as [[k v]|] eqn:SP; [|discriminate]. apply split1_spec in SP. destruct (upd r k v) as [r2| |] eqn:U; [|discriminate..]. cbn [bind].
      intros H. apply IH in H; [|lia]. destruct H as (hs & HT & HU). exists ((k, v) :: hs). split; [econstructor; eauto|]. cbn. rewrite U. exact HU.
  - intros (hs & HT & HU). inversion HT as [l rest0 O B|l k v s1 hs1 rest0 O HL HT1]; subst.
    + rewrite (proj2 (readLine_spec max (l ++ 10 :: rest) l rest)) by auto. cbn [bind]. rewrite (proj2 (trim_blank l) B). now injection HU as ->.
    + rewrite (proj2 (readLine_spec max (l ++ 10 :: s1) l s1)) by auto. cbn [bind]. destruct (strTrim l) as [|x t] eqn:T; [apply trim_blank in T; now apply headerLine_notblank in HL|].
      rewrite header1_split, <- T, (proj2 (split1_spec l k v) HL). cbn [updAll] in HU. destruct (upd r k v) as [r2| |]; [|discriminate..]. cbn [bind] in *. apply IH; [|eauto].
      rewrite app_length in F. cbn [length] in F. lia.
Qed.
Lemma updAll_snoc r hs k v : updAll r (hs ++ [(k, v)]) = let* r1 := updAll r hs in upd r1 k v.
Proof.
  revert r. induction hs as [|[k0 v0] hs IH]; intros r; cbn [updAll app bind]; [destruct (upd r k v); reflexivity|]. destruct (upd r k0 v0); cbn [bind]; auto.
Qed.
Lemma size_text v n : cvtZToUInt64 10 (cz v) = Ok n <-> sizeText v n.
Proof.
  unfold sizeText. split.
  - intros H. exists (cz v). split; [now apply zText_cz|]. pose proof (cvt64_bound 10 (cz v) n H ltac:(lia)). apply cvtZToUInt64_spec in H; [|lia]. split; [apply H|assumption].
  - intros (t & T & U & R). apply zText_cz in T. subst t. apply cvtZToUInt64_spec; [lia|]. split; [exact U|apply R].
Qed.
