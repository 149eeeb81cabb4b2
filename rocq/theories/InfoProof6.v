From Verif Require Import Base Str JsonModel JsonSpec JsonProof IniModel InfoModel InfoSpec IniProof.
Open Scope Z_scope.

(** * Lines of a configuration file *)
Lemma noWs_isWs c : noWs c -> isWs c = false. Proof. unfold noWs, isWs. lia. Qed.
Lemma trim_plain a s b : wsp a -> wsp b -> trimmed s -> strTrim (a ++ s ++ b) = s.
Proof.
  intros Ha Hb Hs. unfold strTrim. rewrite jws_app by exact Ha.
  assert (Hb' : wsp (rev b)) by (apply Forall_rev; exact Hb).
  destruct Hs as [-> |[(c & r & E & Hc) (r' & c' & E' & Hc')]].
  - cbn [app]. pose proof (jws_app b [] Hb) as K. rewrite app_nil_r in K. rewrite K. reflexivity.
  - assert (E2 : jws (s ++ b) = s ++ b) by (rewrite E; cbn; now rewrite noWs_isWs). rewrite E2, rev_app_distr, jws_app by exact Hb'.
    assert (E3 : jws (rev s) = rev s) by (rewrite E', rev_app_distr; cbn; now rewrite noWs_isWs). rewrite E3. apply rev_involutive.
Qed.
Lemma plain_split k : forall pre v, ~ In 61 k -> iniSplitPlain pre (k ++ 61 :: v) = Ok (strTrim (pre ++ k), strTrim v).
Proof.
  induction k as [|c k IH]; intros pre v H; cbn [app iniSplitPlain].
  - change (61 =? 61) with true. cbn. now rewrite app_nil_r.
  - destruct (Z.eqb_spec c 61) as [-> |]; [exfalso; apply H; now left|]. rewrite IH by (intros K; apply H; now right). now rewrite <- app_assoc.
Qed.
Lemma wsp_no61 w : wsp w -> ~ In 61 w. Proof. intros H K. unfold wsp in H. rewrite Forall_forall in H. specialize (H _ K). unfold isWs in H. lia. Qed.
Theorem config_line sec k v w1 w2 w3 w4 : sec <> [] -> k <> [] -> trimmed k -> trimmed v -> ~ In 61 k -> hd 0 k <> 35 -> hd 0 k <> 91 ->
  wsp w1 -> wsp w2 -> wsp w3 -> wsp w4 -> iniLine false sec (w1 ++ k ++ w2 ++ 61 :: w3 ++ v ++ w4) = Ok (sec, Some (k, v)).
Proof.
  intros Hsec Hk Tk Tv H61 H35 H91 W1 W2 W3 W4. unfold iniLine.
  set (v' := match v with [] => [] | _ => w3 ++ v end).
  assert (Et : strTrim (w1 ++ k ++ w2 ++ 61 :: w3 ++ v ++ w4) = k ++ w2 ++ 61 :: v').
  { destruct Tk as [-> |[(c & r & Ek & Hc) _]]; [congruence|]. destruct Tv as [-> |[_ (r' & c' & Ev & Hc')]].
    - assert (E : w1 ++ k ++ w2 ++ 61 :: w3 ++ [] ++ w4 = w1 ++ (k ++ w2 ++ [61]) ++ (w3 ++ w4)) by (repeat rewrite <- app_assoc; reflexivity). rewrite E, trim_plain; try assumption; [|apply Forall_app; auto|].
      + unfold v'. reflexivity.
      + right. split; [exists c, (r ++ w2 ++ [61]); subst k; auto|]. exists (k ++ w2), 61. rewrite <- app_assoc. split; [reflexivity|unfold noWs; lia].
    - assert (E : w1 ++ k ++ w2 ++ 61 :: w3 ++ v ++ w4 = w1 ++ (k ++ w2 ++ 61 :: w3 ++ v) ++ w4) by (repeat (rewrite <- app_assoc; cbn [app]); reflexivity). rewrite E, trim_plain; try assumption.
      + unfold v'. destruct v; [destruct r'; discriminate|reflexivity].
      + right. split; [exists c, (r ++ w2 ++ 61 :: w3 ++ v); subst k; auto|]. exists (k ++ w2 ++ 61 :: w3 ++ r'), c'. rewrite Ev. repeat (rewrite <- app_assoc; cbn [app]). auto. }
  rewrite Et. assert (Ek : exists c r, k = c :: r) by (destruct k; [congruence|eauto]). destruct Ek as (c & r & Ek). rewrite Ek at 1. cbn [app negb andb]. rewrite Ek in H35, H91. cbn in H35, H91.
  destruct (Z.eqb_spec c 35); [congruence|]. destruct (Z.eqb_spec c 91); [congruence|]. cbn [andb]. destruct sec as [|x sec]; [congruence|].
  assert (E1 : k ++ w2 ++ 61 :: v' = (k ++ w2) ++ 61 :: v') by now rewrite <- app_assoc. rewrite E1.
  rewrite plain_split by (intros K; apply in_app_or in K as [K|K]; [exact (H61 K)|exact (wsp_no61 w2 W2 K)]). cbn [bind app].
  pose proof (trim_plain [] k w2 ltac:(constructor) W2 Tk) as Etk. cbn [app] in Etk. rewrite Etk.
  assert (Ev : strTrim v' = v). { unfold v'. destruct v as [|a v]; [reflexivity|]. rewrite <- (app_nil_r (w3 ++ a :: v)), <- app_assoc. apply trim_plain; [exact W3|constructor|exact Tv]. }
  rewrite Ev, Ek. reflexivity.
Qed.
