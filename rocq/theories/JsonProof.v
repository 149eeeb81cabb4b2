From Verif Require Import Base Str ConvertModel NumModel NumSpec NumProof JsonModel JsonSpec.
Open Scope Z_scope.

(** * White space *)
Definition wsOk (s : str) : Prop := match s with [] => True | c :: _ => isWs c = false end.
Lemma isWs_spec c : isWs c = true <-> c = 32 \/ c = 9 \/ c = 10 \/ c = 13.
Proof. unfold isWs. rewrite !orb_true_iff, !Z.eqb_eq. tauto. Qed.
Lemma jws_app w s : wsp w -> jws (w ++ s) = jws s.
Proof. induction 1 as [|c w Hc Hw IH]; [reflexivity|]. cbn. apply isWs_spec in Hc. now rewrite Hc. Qed.
Lemma jws_ok s : wsOk s -> jws s = s.
Proof. destruct s as [|c r]; cbn; [reflexivity|]. now intros ->. Qed.
Lemma jws_wsOk s : wsOk (jws s).
Proof. induction s as [|c r IH]; cbn; [exact I|]. destruct (isWs c) eqn:E; [exact IH|exact E]. Qed.
Lemma jws_idem s : jws (jws s) = jws s.
Proof. apply jws_ok, jws_wsOk. Qed.
Lemma jws_split s : exists w, wsp w /\ s = w ++ jws s.
Proof.
  induction s as [|c r (w & Hw & E)]; [exists []; split; [constructor|reflexivity]|].
  cbn. destruct (isWs c) eqn:Ec; [|exists []; split; [constructor|reflexivity]].
  exists (c :: w). split; [constructor; [now apply isWs_spec|exact Hw]|]. cbn. now f_equal.
Qed.
Lemma jws_len s : (length (jws s) <= length s)%nat.
Proof. destruct (jws_split s) as (w & _ & E). rewrite E at 2. rewrite app_length. lia. Qed.

(** * Head of a value *)
Definition headOk (x : str) (t : jtype) : Prop :=
  match x with [] => False | c :: _ => isWs c = false /\ c <> 44 end /\ jtypeAt x = Ok t.
Lemma headOk_ws x t : headOk x t -> jws x = x.
Proof. intros [H _]. apply jws_ok. destruct x; [destruct H|]. exact (proj1 H). Qed.

Definition markFirst (l : list (bool * bool)) : list (bool * bool) := match l with [] => [] | (o, _) :: r => (o, true) :: r end.
Definition after (st : jread) (rest : str) : jread :=
  mkJread rest (markFirst (jstack st)) false (match jstack st with [] => true | _ => false end).
Definition valuePos (st : jread) (x : str) : Prop :=
  jcomplete st = false /\
  match jstack st with
  | [] | (false, false) :: _ => jkey st = false /\ exists w, wsp w /\ jtext st = w ++ x
  | (false, true) :: _ => jkey st = false /\ exists w w', wsp w /\ wsp w' /\ jtext st = w ++ 44 :: w' ++ x
  | (true, _) :: _ => jkey st = true /\ exists w, wsp w /\ jtext st = w ++ x
  end.

Lemma match44 {A} (s : str) (f : str -> A) (g : A) : hd 0 s <> 44 -> match s with 44 :: r0 => f r0 | _ => g end = g.
Proof. destruct s as [|c r]; [reflexivity|]. cbn [hd]. intros H. destruct c as [|p|p]; try reflexivity; do 6 (destruct p as [p|p|]; try reflexivity); congruence. Qed.
Lemma type_plain st w x t : wsp w -> jtext st = w ++ x -> headOk x t ->
  jsonReadTypeNextIgnoreComma st = Ok (t, jsonReadConsumeWhiteSpace st) /\ jtext (jsonReadConsumeWhiteSpace st) = x.
Proof.
  intros Hw Et Hx. pose proof (headOk_ws _ _ Hx) as Ex. destruct Hx as [Hh Ht].
  assert (E : jtext (jsonReadConsumeWhiteSpace st) = x) by (cbn; rewrite Et, jws_app by exact Hw; exact Ex).
  split; [|exact E]. unfold jsonReadTypeNextIgnoreComma. cbv zeta. rewrite E. rewrite (match44 x) by (destruct x; [destruct Hh|apply Hh]). unfold jsonReadTypeNext. cbv zeta.
  replace (jsonReadConsumeWhiteSpace (jsonReadConsumeWhiteSpace st)) with (jsonReadConsumeWhiteSpace st)
    by (unfold jsonReadConsumeWhiteSpace, setText; cbn; now rewrite jws_idem).
  rewrite E, Ht. reflexivity.
Qed.
Lemma type_comma st w w' x t : wsp w -> wsp w' -> jtext st = w ++ 44 :: w' ++ x -> headOk x t ->
  jsonReadTypeNextIgnoreComma st = Ok (t, jsonReadConsumeWhiteSpace st) /\ jtext (jsonReadConsumeWhiteSpace st) = 44 :: w' ++ x.
Proof.
  intros Hw Hw' Et Hx. pose proof (headOk_ws _ _ Hx) as Ex. destruct Hx as [Hh Ht].
  assert (E : jtext (jsonReadConsumeWhiteSpace st) = 44 :: w' ++ x) by (cbn; rewrite Et, jws_app by exact Hw; reflexivity).
  split; [|exact E]. unfold jsonReadTypeNextIgnoreComma. cbv zeta. rewrite E, jws_app by exact Hw'. rewrite Ex, Ht. reflexivity.
Qed.
Lemma valuePos_type st x t : valuePos st x -> headOk x t ->
  jsonReadTypeNextIgnoreComma st = Ok (t, jsonReadConsumeWhiteSpace st) /\ valuePos (jsonReadConsumeWhiteSpace st) x.
Proof.
  intros [Hc Hp] Hx. unfold valuePos.
  replace (jstack (jsonReadConsumeWhiteSpace st)) with (jstack st) by reflexivity.
  replace (jkey (jsonReadConsumeWhiteSpace st)) with (jkey st) by reflexivity.
  replace (jcomplete (jsonReadConsumeWhiteSpace st)) with (jcomplete st) by reflexivity.
  assert (P : (exists w, wsp w /\ jtext st = w ++ x) ->
              jsonReadTypeNextIgnoreComma st = Ok (t, jsonReadConsumeWhiteSpace st) /\
              exists w, wsp w /\ jtext (jsonReadConsumeWhiteSpace st) = w ++ x).
  { intros (w & Hw & Et). destruct (type_plain _ _ _ _ Hw Et Hx) as [A B]. split; [exact A|]. exists []. split; [constructor|exact B]. }
  destruct (jstack st) as [|[[|] [|]] stk]; destruct Hp as [Hk Hp]; try (apply P in Hp as [A B]; auto).
  destruct Hp as (w & w' & Hw & Hw' & Et). destruct (type_comma _ _ _ _ _ Hw Hw' Et Hx) as [A B]. split; [exact A|].
  split; [exact Hc|]. split; [exact Hk|]. exists [], w'. split; [constructor|]. split; [exact Hw'|exact B].
Qed.

Definition isBegin (t : jtype) : Prop := t <> TArrayEnd /\ t <> TObjectEnd.
Definition pushed (st : jread) (x : str) (t : jtype) : jread :=
  if jtypeScalar t then after st x
  else mkJread x ((match t with TObjectBegin => true | _ => false end, false) :: markFirst (jstack st)) false false.
Lemma jtypeEqb_refl t : jtypeEqb t t = true.
Proof. now destruct t. Qed.
Lemma valuePos_push st x t : valuePos st x -> headOk x t -> jsonReadPush st t false = Ok (pushed st x t).
Proof.
  intros Hp Hx. unfold jsonReadPush. destruct (valuePos_type _ _ _ Hp Hx) as [E Hp']. rewrite E. cbn [bind].
  rewrite jtypeEqb_refl. cbn [negb]. pose proof (headOk_ws _ _ Hx) as Ex. clear E.
  destruct Hp as [Hc Hp]. rewrite Hc. unfold pushed, after, jsonReadConsumeWhiteSpace. cbn [jtext jstack jkey jcomplete setText].
  destruct (jstack st) as [|[[|] [|]] stk]; cbn [andb negb orb bind markFirst].
  - destruct Hp as [Hk (w & Hww & Et)]. rewrite Et, (jws_app _ _ Hww), Ex, Hk. destruct (jtypeScalar t); reflexivity.
  - destruct Hp as [Hk (w & Hww & Et)]. rewrite Et, (jws_app _ _ Hww), Ex, Hk. cbn [bind]. destruct (jtypeScalar t); reflexivity.
  - destruct Hp as [Hk (w & Hww & Et)]. rewrite Et, (jws_app _ _ Hww), Ex, Hk. cbn [bind]. destruct (jtypeScalar t); reflexivity.
  - destruct Hp as [Hk (w & w' & Hww & Hww' & Et)]. rewrite Et, (jws_app _ _ Hww). cbn [jws isWs]. cbn [bind Z.eqb orb].
    cbn. rewrite (jws_app _ _ Hww'), Ex, Hk. cbn [bind]. destruct (jtypeScalar t); reflexivity.
  - destruct Hp as [Hk (w & Hww & Et)]. rewrite Et, (jws_app _ _ Hww), Ex, Hk. cbn [bind]. destruct (jtypeScalar t); reflexivity.
Qed.
Lemma after_ws st rest : after (jsonReadConsumeWhiteSpace st) rest = after st rest.
Proof. reflexivity. Qed.
Lemma pushed_ws st x t : pushed (jsonReadConsumeWhiteSpace st) x t = pushed st x t.
Proof. reflexivity. Qed.

(** * Numbers *)
Definition follow (rest : str) : Prop := match rest with [] => True | c :: _ => isDigit c = false end.
Lemma dec_digit c d : digitIs c d -> d < 10 -> isDigit c = true.
Proof. intros H Hd. unfold isDigit. destruct H; lia. Qed.
Lemma digitsIs_all s v : digitsIs 10 s v -> s <> [] /\ Forall (fun c => isDigit c = true) s.
Proof.
  induction 1 as [c d Hc Hd|s v c d H [IH1 IH2] Hc Hd].
  - split; [discriminate|]. constructor; [eapply dec_digit; eassumption|constructor].
  - split; [destruct s; discriminate|]. apply Forall_app. split; [exact IH2|]. constructor; [eapply dec_digit; eassumption|constructor].
Qed.
Lemma spanDigits_app ds rest : Forall (fun c => isDigit c = true) ds -> follow rest -> spanDigits (ds ++ rest) = length ds.
Proof.
  induction 1 as [|c ds Hc _ IH]; intros Hf; cbn [app spanDigits length].
  - destruct rest as [|c r]; cbn; [reflexivity|]. cbn in Hf. now rewrite Hf.
  - rewrite Hc. f_equal. now apply IH.
Qed.
Lemma match45 {A} (s : str) (a b : A) : hd 0 s <> 45 -> match s with 45 :: _ => a | _ => b end = b.
Proof. destruct s as [|c r]; [reflexivity|]. cbn [hd]. intros H. destruct c as [|p|p]; try reflexivity; do 6 (destruct p as [p|p|]; try reflexivity); congruence. Qed.
Lemma firstn_app_len {A} (a b : list A) : firstn (length a) (a ++ b) = a.
Proof. rewrite firstn_app, Nat.sub_diag, firstn_all. cbn. apply app_nil_r. Qed.
Lemma skipn_app_len {A} (a b : list A) : skipn (length a) (a ++ b) = b.
Proof. rewrite skipn_app, Nat.sub_diag, skipn_all. reflexivity. Qed.

Lemma number_uint st ds v rest : digitsIs 10 ds v -> (length ds < 64)%nat -> v < 2 ^ 64 -> follow rest -> jtext st = ds ++ rest ->
  jsonReadNumber st = Ok (false, v, setText st rest).
Proof.
  intros H Hl Hv Hf Et. destruct (digitsIs_all _ _ H) as [Hne Hall]. unfold jsonReadNumber. rewrite Et. cbv zeta.
  assert (En : match ds ++ rest with 45 :: _ => true | _ => false end = false).
  { destruct ds as [|c r]; [congruence|]. apply match45. cbn [hd app]. inversion Hall; subst. unfold isDigit in *. lia. }
  rewrite En. rewrite (spanDigits_app _ _ Hall Hf). cbn [Nat.add].
  destruct (Nat.eqb_spec (length ds) 0); [destruct ds; [congruence|discriminate]|].
  destruct (Nat.leb_spec 64 (length ds)); [lia|]. rewrite firstn_app_len, skipn_app_len.
  rewrite (proj2 (cvtZToUInt64_spec 10 ltac:(lia) ds v)); [reflexivity|]. split; [now apply digits_unsigned|exact Hv].
Qed.
Lemma number_int st ds v rest : digitsIs 10 ds v -> (length ds < 64)%nat -> v <= 2 ^ 63 -> follow rest -> jtext st = 45 :: ds ++ rest ->
  jsonReadNumber st = Ok (true, - v, setText st rest).
Proof.
  intros H Hl Hv Hf Et. destruct (digitsIs_all _ _ H) as [Hne Hall]. unfold jsonReadNumber. rewrite Et. cbv zeta. cbn [tl].
  rewrite (spanDigits_app _ _ Hall Hf).
  destruct (Nat.eqb_spec (length ds) 0); [destruct ds; [congruence|discriminate]|].
  destruct (Nat.leb_spec 64 (length ds)); [lia|]. cbn [Nat.add firstn skipn]. rewrite firstn_app_len, skipn_app_len.
  rewrite (proj2 (cvtZToInt64_spec 10 ltac:(lia) (45 :: ds) (- v))); [reflexivity|]. split.
  - right. exists [], ds, v. split; [now left|]. auto.
  - assert (0 <= v) by (eapply (digitsIs_nonneg 10); [lia|eassumption]). unfold two63. change (2 ^ 63) with 9223372036854775808 in *. lia.
Qed.

(** * Strings *)
Lemma charIs_body u c t : jcharIs u c t -> forall r, strBody (t ++ r) = let* (s, rest) := strBody r in Ok (c :: s, rest).
Proof.
  intros H r. destruct H as [c H1 H2|e c H|a b x y Hu Ha Hb Hx Hy].
  - cbn. destruct (Z.eqb_spec c 34); [contradiction|]. destruct (Z.eqb_spec c 92); [contradiction|]. reflexivity.
  - cbn in H. repeat (destruct H as [H|H]; [injection H as <- <-; reflexivity|]). destruct H.
  - change (strBody ([92;117;48;48;a;b] ++ r)) with (let* v := cvtZSubNToUInt 16 [a; b] 0 2 in let* (t, rest) := strBody r in Ok (v :: t, rest)).
    unfold cvtZSubNToUInt. cbn [skipn firstn]. rewrite (proj2 (cvtZToUInt_spec 16 ltac:(lia) [a; b] (16 * x + y))); [reflexivity|].
    pose proof (digitIs_nonneg _ _ Ha). pose proof (digitIs_nonneg _ _ Hb). split; [|unfold two32; lia].
    apply digits_unsigned. replace (16 * x + y) with (x * 16 + y) by lia. apply (ds_snoc 16 [a] x b y); [|exact Hb|lia]. constructor; [exact Ha|lia].
Qed.
Lemma chars_body u s t : jcharsAre u s t -> forall rest, strBody (t ++ 34 :: rest) = Ok (s, rest).
Proof.
  induction 1 as [|c t s r Hc Hs IH]; intros rest; [reflexivity|]. rewrite <- app_assoc. rewrite (charIs_body _ _ _ Hc), IH. reflexivity.
Qed.
Lemma chars_skip s t : jcharsAre false s t -> forall rest, skipBody (t ++ 34 :: rest) = Ok rest.
Proof.
  induction 1 as [|c t s r Hc Hs IH]; intros rest; [reflexivity|]. rewrite <- app_assoc. destruct Hc as [c H1 H2|e c H|a b x y Hu Ha Hb Hx Hy].
  - cbn. destruct (Z.eqb_spec c 34); [contradiction|]. destruct (Z.eqb_spec c 92); [contradiction|]. apply IH.
  - cbn in H. repeat (destruct H as [H|H]; [injection H as <- <-; cbn; apply IH|]). destruct H.
  - discriminate.
Qed.
Lemma key_body k rest : jkeyText k -> keyBody (k ++ 34 :: rest) = Ok (k, rest).
Proof.
  intros [H1 H2]. induction k as [|c k IH]; [reflexivity|]. cbn. destruct (Z.eqb_spec c 34); [subst; cbn in H1; tauto|].
  destruct (Z.eqb_spec c 92); [subst; cbn in H2; tauto|]. rewrite IH; [reflexivity| |]; cbn in *; tauto.
Qed.
Lemma key_skip k rest : jkeyText k -> skipBody (k ++ 34 :: rest) = Ok rest.
Proof.
  intros [H1 H2]. induction k as [|c k IH]; [reflexivity|]. cbn. destruct (Z.eqb_spec c 34); [subst; cbn in H1; tauto|].
  destruct (Z.eqb_spec c 92); [subst; cbn in H2; tauto|]. apply IH; cbn in *; tauto.
Qed.
Lemma colon_ok w s : wsp w -> jsonReadColon (w ++ 58 :: s) = Ok s.
Proof. intros H. unfold jsonReadColon. rewrite jws_app by exact H. reflexivity. Qed.

(** * Positions in containers *)
Definition elemPos (obj first : bool) (r : list (bool * bool)) (st : jread) (s : str) : Prop :=
  jcomplete st = false /\ jkey st = false /\ jstack st = (obj, first) :: r /\
  if first then exists w, wsp w /\ jtext st = w ++ 44 :: s else jtext st = s.
Lemma elemPos_value first r st w x : wsp w -> elemPos false first r st (w ++ x) -> valuePos st x.
Proof.
  intros Hw (Hc & Hk & Es & Ht). unfold valuePos. rewrite Es. split; [exact Hc|]. destruct first.
  - destruct Ht as (w0 & Hw0 & Et). split; [exact Hk|]. exists w0, w. auto.
  - split; [exact Hk|]. exists w. auto.
Qed.
Definition endState (obj : bool) (r : list (bool * bool)) (first : bool) (s : str) : jread := mkJread s ((obj, first) :: r) false false.

(** The end of a container is seen. *)
Lemma end_type obj first r w rest : wsp w ->
  jsonReadTypeNextIgnoreComma (endState obj r first (w ++ (if obj then 125 else 93) :: rest)) =
  Ok (if obj then TObjectEnd else TArrayEnd, endState obj r first ((if obj then 125 else 93) :: rest)).
Proof.
  intros Hw. unfold jsonReadTypeNextIgnoreComma, jsonReadTypeNext, jsonReadConsumeWhiteSpace, endState, setText. cbn [jtext jstack jkey jcomplete].
  rewrite jws_app by exact Hw. destruct obj; reflexivity.
Qed.
Lemma end_pop (obj first : bool) r rest st : jstack st = r -> jcomplete st = false ->
  (let* st := jsonReadPop (endState obj (markFirst r) first ((if obj then 125 else 93) :: rest)) (if obj then TObjectEnd else TArrayEnd) in jadvance st)
  = Ok (after st rest).
Proof.
  intros Es Hc. unfold after. rewrite Es. destruct obj; cbn; destruct r as [|[o f] r]; reflexivity.
Qed.

(** Key of a member. *)
Lemma member_key first r st w k w1 x : jkeyText k -> wsp w -> wsp w1 -> elemPos true first r st (w ++ (34 :: k ++ [34]) ++ w1 ++ 58 :: x) ->
  exists st1, jsonReadTypeNextIgnoreComma st = Ok (TString, jsonReadConsumeWhiteSpace st) /\
  jsonReadPush (jsonReadConsumeWhiteSpace st) TString true = Ok st1 /\ jtext st1 = 34 :: k ++ 34 :: w1 ++ 58 :: x /\
  jstack st1 = (true, true) :: r /\ jkey st1 = true /\ jcomplete st1 = false.
Proof.
  intros Hk Hw Hw1 (Hc & Hkey & Es & Ht).
  assert (El : (34 :: k ++ [34]) ++ w1 ++ 58 :: x = 34 :: k ++ 34 :: w1 ++ 58 :: x) by (cbn; rewrite <- app_assoc; reflexivity).
  rewrite El in Ht.
  assert (Hx : headOk (34 :: k ++ 34 :: w1 ++ 58 :: x) TString) by (split; [split; [reflexivity|discriminate]|reflexivity]).
  assert (E : jsonReadTypeNextIgnoreComma st = Ok (TString, jsonReadConsumeWhiteSpace st) /\
              jtext (jsonReadConsumeWhiteSpace st) = if first then 44 :: w ++ 34 :: k ++ 34 :: w1 ++ 58 :: x else 34 :: k ++ 34 :: w1 ++ 58 :: x).
  { destruct first; [destruct Ht as (w0 & Hw0 & Et); exact (type_comma _ _ _ _ _ Hw0 Hw Et Hx)|exact (type_plain _ _ _ _ Hw Ht Hx)]. }
  destruct E as [E1 Et].
  assert (E2 : jsonReadTypeNextIgnoreComma (jsonReadConsumeWhiteSpace st) = Ok (TString, jsonReadConsumeWhiteSpace st)).
  { rewrite <- E1. unfold jsonReadTypeNextIgnoreComma, jsonReadTypeNext, jsonReadConsumeWhiteSpace. cbn [jtext jstack jkey jcomplete setText].
    rewrite !jws_idem. reflexivity. }
  rewrite E1. unfold jsonReadPush. rewrite E2. cbn [bind jtypeEqb negb]. rewrite Et.
  change (jstack (jsonReadConsumeWhiteSpace st)) with (jstack st). change (jkey (jsonReadConsumeWhiteSpace st)) with (jkey st).
  change (jcomplete (jsonReadConsumeWhiteSpace st)) with (jcomplete st). rewrite Es, Hkey, Hc. cbn [bind jtypeScalar].
  destruct first; cbn [andb negb orb bind].
  - rewrite (jws_app _ _ Hw). change (jws (34 :: k ++ 34 :: w1 ++ 58 :: x)) with (34 :: k ++ 34 :: w1 ++ 58 :: x).
    eexists. split; [reflexivity|]. split; [reflexivity|]. cbn. auto.
  - eexists. split; [reflexivity|]. split; [reflexivity|]. cbn. auto.
Qed.
