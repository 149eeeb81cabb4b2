From Verif Require Import Base Str ConvertModel NumModel NumSpec NumProof JsonModel JsonSpec JsonProof JsonProof2 JsonProof3.
Open Scope Z_scope.

(** * What jsonReadSkip() does with any text at all *)

(** One step over the text.  The flags tell that a value has just ended. *)
Inductive tok : bool -> str -> bool -> str -> Prop :=
| t_ws f c s : isWs c = true -> tok f (c :: s) f s
| t_sep f c s : c = 44 \/ c = 58 -> tok f (c :: s) false s
| t_open c s : c = 91 \/ c = 123 -> tok false (c :: s) false s
| t_close f c s : c = 93 \/ c = 125 -> tok f (c :: s) true s
| t_lit l s : l <> [] -> Forall (fun c => c <> 61 /\ c <> 34 /\ c <> 92) l -> tok false (l ++ s) true s
| t_str o s r : o = 34 \/ (o = 44 /\ hd 0 (jws s) = 34) -> skipBody s = Ok r -> tok false (o :: s) true r.
Inductive toks : bool -> str -> bool -> str -> Prop :=
| ts_nil f s : toks f s f s
| ts_step f s f1 s1 f2 s2 : tok f s f1 s1 -> toks f1 s1 f2 s2 -> toks f s f2 s2.
Lemma toks_trans f s f1 s1 f2 s2 : toks f s f1 s1 -> toks f1 s1 f2 s2 -> toks f s f2 s2.
Proof. induction 1; [auto|]. intros H2. eapply ts_step; [eassumption|auto]. Qed.
Lemma toks_one f s f1 s1 : tok f s f1 s1 -> toks f s f1 s1.
Proof. intros H. eapply ts_step; [exact H|constructor]. Qed.

Definition suffix (r s : str) : Prop := exists p, s = p ++ r.
Lemma suffix_refl s : suffix s s. Proof. now exists []. Qed.
Lemma suffix_trans a b c : suffix a b -> suffix b c -> suffix a c.
Proof. intros [p ->] [q ->]. exists (q ++ p). now rewrite app_assoc. Qed.
Lemma suffix_cons c s : suffix s (c :: s). Proof. now exists [c]. Qed.
Lemma suffix_in x a b : suffix a b -> In x a -> In x b.
Proof. intros [p ->] H. apply in_or_app. now right. Qed.
Lemma suffix_len a b : suffix a b -> (length a <= length b)%nat.
Proof. intros [p ->]. rewrite app_length. lia. Qed.

Lemma skipBody_suffix n : forall s r, (length s <= n)%nat -> skipBody s = Ok r -> suffix r s /\ (length r < length s)%nat.
Proof.
  induction n as [|n IH]; intros s r Hn H; [destruct s; [discriminate|cbn in Hn; lia]|]. destruct s as [|c s]; [discriminate|]. cbn [skipBody length] in *.
  assert (K : forall t, suffix t s -> skipBody t = Ok r -> suffix r (c :: s) /\ (length r < S (length s))%nat).
  { intros t Ht E. pose proof (suffix_len _ _ Ht). destruct (IH t r ltac:(lia) E) as [A B]. split; [|lia].
    eapply suffix_trans; [exact A|]. eapply suffix_trans; [exact Ht|apply suffix_cons]. }
  destruct (c =? 34). { injection H as <-. split; [apply suffix_cons|lia]. }
  destruct (c =? 92); [|apply (K s); [apply suffix_refl|exact H]].
  destruct s as [|e r1]; [discriminate|]. destruct (e =? 117); [|apply (K r1); [apply suffix_cons|exact H]].
  destruct r1 as [|a [|b [|x [|d r2]]]]; try discriminate. destruct (_ && _); [|discriminate]. destruct r2 as [|y r3]; [discriminate|].
  apply (K r3); [exists [e;a;b;x;d;y]; reflexivity|exact H].
Qed.
Lemma skipBody_err n : forall s, (length s <= n)%nat -> match skipBody s with Ok _ => True | Err e => e = EJsonFormat | UB => In 92 s end.
Proof.
  induction n as [|n IH]; intros s Hn; [destruct s; [reflexivity|cbn in Hn; lia]|]. destruct s as [|c s]; [reflexivity|]. cbn [skipBody length] in *.
  assert (K : forall t, suffix t s -> match skipBody t with Ok _ => True | Err e => e = EJsonFormat | UB => In 92 (c :: s) end).
  { intros t Ht. pose proof (suffix_len _ _ Ht). specialize (IH t ltac:(lia)). destruct (skipBody t); auto. right. eapply suffix_in; eassumption. }
  destruct (c =? 34); [exact I|]. destruct (Z.eqb_spec c 92); [subst c|apply K, suffix_refl].
  destruct s as [|e r1]; [now left|]. destruct (e =? 117); [|apply K, suffix_cons].
  destruct r1 as [|a [|b [|x [|d r2]]]]; try reflexivity. destruct (_ && _); [|reflexivity]. destruct r2 as [|y r3]; [now left|].
  apply K. exists [e;a;b;x;d;y]. reflexivity.
Qed.
Lemma tok_suffix f s f1 s1 : tok f s f1 s1 -> suffix s1 s /\ (length s1 < length s)%nat.
Proof.
  destruct 1; try (split; [apply suffix_cons|cbn; lia]).
  - split; [now exists l|]. rewrite app_length. destruct l; [congruence|]. cbn. lia.
  - destruct (skipBody_suffix _ _ _ (le_n _) H0) as [A B]. split; [eapply suffix_trans; [exact A|apply suffix_cons]|cbn; lia].
Qed.
Lemma toks_suffix f s f1 s1 : toks f s f1 s1 -> suffix s1 s.
Proof. induction 1; [apply suffix_refl|]. eapply suffix_trans; [eassumption|]. eapply tok_suffix; eassumption. Qed.
Lemma toks_ws f s : toks f s f (jws s).
Proof. induction s as [|c s IH]; cbn; [constructor|]. destruct (isWs c) eqn:E; [eapply ts_step; [now apply t_ws|exact IH]|constructor]. Qed.

(** Outcome of a step of the reader: a number that is too big has at least 19 digits, and the terminating zero is passed over only in a string. *)
Definition bigRun (text : str) : Prop := exists p d r, text = p ++ d ++ r /\ Forall (fun c => isDigit c = true) d /\ (19 <= length d)%nat.
Definition overread (f : bool) (text : str) : Prop := exists t, toks f text false (34 :: t) /\ skipBody t = UB.
Definition okOr {A} (f : bool) (text : str) (Q : A -> Prop) (r : res A) : Prop :=
  match r with Ok a => Q a | Err e => e = EJsonFormat \/ (e = EFormat /\ bigRun text) | UB => overread f text end.
Lemma overread_92 f text : overread f text -> In 92 text.
Proof.
  intros (t & Ht & E). pose proof (skipBody_err _ t (le_n _)) as K. rewrite E in K.
  apply (suffix_in _ _ _ (toks_suffix _ _ _ _ Ht)). now right.
Qed.
Lemma okOr_bind {A B} f text (Q : A -> Prop) (R : B -> Prop) r k : okOr f text Q r -> (forall a, Q a -> okOr f text R (k a)) -> okOr f text R (bind r k).
Proof. destruct r; cbn; auto. Qed.
Lemma bigRun_suffix a b : suffix a b -> bigRun a -> bigRun b.
Proof. intros [q ->] (p & d & r & -> & H). exists (q ++ p), d, r. rewrite <- app_assoc. auto. Qed.
Lemma okOr_toks {A} f a f1 b (Q : A -> Prop) r : toks f b f1 a -> okOr f1 a Q r -> okOr f b Q r.
Proof.
  intros H. destruct r; cbn; auto.
  - intros [E|[E K]]; [now left|right; split; [exact E|]]. eapply bigRun_suffix; [eapply toks_suffix; eassumption|exact K].
  - intros (t & Ht & K). exists t. split; [eapply toks_trans; eassumption|exact K].
Qed.
Lemma okOr_impl {A} f t (Q R : A -> Prop) r : okOr f t Q r -> (forall a, Q a -> R a) -> okOr f t R r.
Proof. destruct r; cbn; auto. Qed.

Lemma typeAt_err f t s : okOr f t (fun _ : jtype => True) (jtypeAt s).
Proof. unfold jtypeAt. destruct s as [|c s]; cbn; auto. repeat (match goal with |- context [if ?b then _ else _] => destruct b end; cbn; auto). Qed.
(** The place where a value of type [t] starts, or a comma that is not a separator. *)
Definition opens (s : str) (t : jtype) : Prop := jtypeAt s = Ok t \/ exists r, s = 44 :: r /\ jtypeAt (jws r) = Ok t.
Lemma tnic_cases st : jsonReadTypeNextIgnoreComma st = Err EJsonFormat \/
  exists t, jsonReadTypeNextIgnoreComma st = Ok (t, setText st (jws (jtext st))) /\
    ((hd 0 (jws (jtext st)) <> 44 /\ jtypeAt (jws (jtext st)) = Ok t) \/ exists r, jws (jtext st) = 44 :: r /\ jtypeAt (jws r) = Ok t).
Proof.
  assert (T : forall s, jtypeAt s = Err EJsonFormat \/ exists t, jtypeAt s = Ok t).
  { intros s. unfold jtypeAt. destruct s as [|c s]; [auto|]. repeat (match goal with |- context [if ?b then _ else _] => destruct b end; eauto). }
  unfold jsonReadTypeNextIgnoreComma, jsonReadTypeNext, jsonReadConsumeWhiteSpace. cbv zeta. cbn [jtext setText]. rewrite jws_idem.
  set (x := jws (jtext st)). destruct (Z.eq_dec (hd 0 x) 44) as [E|E].
  - destruct x as [|c r]; [cbn in E; discriminate|]. cbn [hd] in E. subst c. destruct (T (jws r)) as [-> |[t Et]]; [now left|].
    right. exists t. rewrite Et. split; [reflexivity|]. right. eauto.
  - rewrite match44 by exact E. destruct (T x) as [-> |[t Et]]; [now left|]. right. exists t. rewrite Et. split; [reflexivity|]. left. auto.
Qed.
Lemma tnic_opens st t st1 : jsonReadTypeNextIgnoreComma st = Ok (t, st1) -> st1 = setText st (jws (jtext st)) /\ opens (jws (jtext st)) t.
Proof.
  intros E. destruct (tnic_cases st) as [E'|(t' & E' & H)]; rewrite E in E'; [discriminate|]. injection E' as -> ->. split; [reflexivity|].
  destruct H as [[_ H]|(r & H & H2)]; [now left|right; eauto].
Qed.

Definition vflag (st : jread) : bool := match jstack st with (false, f) :: _ => f | _ => false end.
Definition skipPre (st : jread) : Prop :=
  jcomplete st = false /\ match jstack st with (true, _) :: _ => jkey st = true | _ => jkey st = false end.
Lemma push_any st t : skipPre st ->
  okOr (vflag st) (jtext st) (fun st1 => exists x, st1 = pushed st x t /\ toks (vflag st) (jtext st) false x /\ opens x t) (jsonReadPush st t false).
Proof.
  intros [Hc Hk]. unfold jsonReadPush. rewrite Hc. destruct (tnic_cases st) as [-> |(ta & -> & Ht)]; [cbn; auto|]. cbn [bind].
  destruct (jtypeEqb ta t) eqn:Et; [|cbn; auto]. assert (ta = t) by (destruct ta, t; cbn in Et; congruence). subst ta. cbn [negb].
  cbn [jstack setText jtext jkey]. set (x := jws (jtext st)) in *.
  assert (Ho : opens x t) by (destruct Ht as [[_ Ht]|(r & E & Ht2)]; [now left|right; eauto]).
  assert (Hx : toks false (jtext st) false x) by apply toks_ws.
  unfold pushed, after, vflag. destruct (jstack st) as [|[[|] [|]] stk] eqn:Es; rewrite ?Hk; cbn [bind andb orb negb markFirst].
  - destruct (jtypeScalar t) eqn:Esc; cbn; eauto.
  - destruct (jtypeScalar t) eqn:Esc; cbn; eauto.
  - destruct (jtypeScalar t) eqn:Esc; cbn; eauto.
  - destruct Ht as [[Hn Ht]|(r & E & Ht)].
    + rewrite (match44 x (fun r => Ok (jws r))) by exact Hn. cbn. auto.
    + rewrite E. cbn [bind]. assert (Hr : toks true (jtext st) false (jws r)).
      { eapply toks_trans; [apply toks_ws|]. fold x. rewrite E. eapply ts_step; [apply t_sep; now left|]. apply toks_ws. }
      destruct (jtypeScalar t) eqn:Esc; cbn; exists (jws r); (split; [reflexivity|]); (split; [exact Hr|]); left; exact Ht.
  - destruct (jtypeScalar t) eqn:Esc; cbn; eauto.
Qed.
Lemma push_key st first r : jcomplete st = false -> jkey st = false -> jstack st = (true, first) :: r ->
  okOr first (jtext st) (fun st1 => exists x, st1 = mkJread x ((true, true) :: r) true false /\ toks first (jtext st) false x /\ opens x TString) (jsonReadPush st TString true).
Proof.
  intros Hc Hk Es. unfold jsonReadPush. rewrite Hc. destruct (tnic_cases st) as [-> |(ta & -> & Ht)]; [cbn; auto|]. cbn [bind].
  destruct (jtypeEqb ta TString) eqn:Et; [|cbn; auto]. assert (ta = TString) by (destruct ta; cbn in Et; congruence). subst ta. cbn [negb].
  cbn [jstack setText jtext jkey]. rewrite Es, Hk. cbn [bind jtypeScalar negb orb]. rewrite andb_true_r. set (x := jws (jtext st)) in *.
  destruct first; cbn [andb].
  - destruct Ht as [[Hn Ht]|(r0 & E & Ht)].
    + rewrite (match44 x (fun r => Ok (jws r))) by exact Hn. cbn. auto.
    + rewrite E. cbn. exists (jws r0). split; [reflexivity|]. split; [|left; exact Ht].
      eapply toks_trans; [apply toks_ws|]. fold x. rewrite E. eapply ts_step; [apply t_sep; now left|]. apply toks_ws.
  - cbn. exists x. split; [reflexivity|]. split; [apply toks_ws|]. destruct Ht as [[_ Ht]|(r0 & E & Ht2)]; [now left|right; eauto].
Qed.
Lemma advance_open st t : opens (jtext st) t -> exists c, jtext st = c :: tl (jtext st) /\ jadvance st = Ok (setText st (tl (jtext st))) /\
  (c = 44 \/ jtypeAt (jtext st) = Ok t).
Proof.
  unfold jadvance. intros [H|(r & H & _)].
  - destruct (jtext st) as [|c r]; [discriminate|]. exists c. auto.
  - rewrite H. exists 44. cbn. auto.
Qed.
Lemma typeAt_char s t c r : s = c :: r -> jtypeAt s = Ok t ->
  match t with TString => c = 34 | TArrayBegin => c = 91 | TArrayEnd => c = 93 | TObjectBegin => c = 123 | TObjectEnd => c = 125 | _ => True end.
Proof.
  intros -> H. unfold jtypeAt in H.
  repeat (match type of H with (if ?b then _ else _) = _ => destruct b eqn:?; [injection H as <-|] end); try discriminate; try exact I; lia.
Qed.
Lemma begin_any st (obj : bool) : skipPre st ->
  okOr (vflag st) (jtext st) (fun st1 => exists x, st1 = endState obj (markFirst (jstack st)) false x /\ toks (vflag st) (jtext st) false x /\ (length x < length (jtext st))%nat)
    (let* st := jsonReadPush st (if obj then TObjectBegin else TArrayBegin) false in jadvance st).
Proof.
  intros H. eapply okOr_bind; [apply (push_any _ _ H)|]. intros st1 (x & -> & Ht & Ho).
  assert (E : jtext (pushed st x (if obj then TObjectBegin else TArrayBegin)) = x) by (destruct obj; reflexivity).
  rewrite <- E in Ho. destruct (advance_open _ _ Ho) as (c & Ec & -> & Hc). rewrite E in *. cbn. exists (tl x).
  split; [destruct obj; reflexivity|]. pose proof (suffix_len _ _ (toks_suffix _ _ _ _ Ht)) as L. split; [|rewrite Ec in L; cbn in L; lia].
  eapply toks_trans; [exact Ht|]. rewrite Ec at 1. apply toks_one. destruct Hc as [-> |Hc]; [apply t_sep; now left|].
  apply t_open. pose proof (typeAt_char _ _ _ _ Ec Hc) as K. destruct obj; auto.
Qed.
Lemma pop_any obj r first s : okOr first s (fun st1 => exists x, st1 = mkJread x r false (match r with [] => true | _ => false end) /\ toks first s true x /\ (length x < length s)%nat /\ exists c, c <> 34 /\ suffix (c :: x) s)
  (let* st := jsonReadPop (endState obj r first s) (if obj then TObjectEnd else TArrayEnd) in jadvance st).
Proof.
  unfold jsonReadPop, endState. cbn [jcomplete]. unfold jsonReadTypeNext, jsonReadConsumeWhiteSpace. cbv zeta. cbn [jtext setText].
  destruct (jtypeAt (jws s)) as [t| |] eqn:E.
  - cbn [bind]. destruct (jtypeEqb t (if obj then TObjectEnd else TArrayEnd)) eqn:Et; [|cbn; auto]. cbn [negb bind jstack setText jkey jtext].
    assert (t = if obj then TObjectEnd else TArrayEnd) by (destruct t, obj; cbn in Et; congruence). subst t.
    unfold jadvance. cbn [jtext]. destruct (jws s) as [|c x] eqn:Ex; [discriminate|]. cbn. exists x. split; [reflexivity|].
    pose proof (jws_len s) as L. rewrite Ex in L. cbn in L. pose proof (typeAt_char _ _ _ _ eq_refl E) as K.
    split; [|split; [lia|exists c; split; [destruct obj; subst c; discriminate|]]].
    + eapply toks_trans; [apply toks_ws|]. rewrite Ex. apply toks_one, t_close. destruct obj; auto.
    + rewrite <- Ex. apply (toks_suffix _ _ _ _ (toks_ws true s)).
  - pose proof (typeAt_err first s (jws s)) as K. rewrite E in K. exact K.
  - pose proof (typeAt_err first s (jws s)) as K. rewrite E in K. exact K.
Qed.

Definition valueDone (st : jread) (st' : jread) : Prop :=
  exists x, st' = after st x /\ toks (vflag st) (jtext st) true x /\ (length x < length (jtext st))%nat.
Lemma firstn_split {A} n (s : list A) : s = firstn n s ++ skipn n s.
Proof. symmetry. apply firstn_skipn. Qed.
Lemma spanDigits_spec s : Forall (fun c => isDigit c = true) (firstn (spanDigits s) s) /\ (spanDigits s <= length s)%nat.
Proof.
  induction s as [|c s [IH1 IH2]]; cbn; [split; [constructor|lia]|]. destruct (isDigit c) eqn:E; cbn; [split; [constructor; assumption|lia]|split; [constructor|lia]].
Qed.
Lemma digits_value d : d <> [] -> Forall (fun c => isDigit c = true) d -> exists v, digitsIs 10 d v /\ v < 10 ^ Z.of_nat (length d).
Proof.
  induction d as [|c d IH] using rev_ind; [congruence|]. intros _ H. apply Forall_app in H. destruct H as [Hd Hc]. inversion Hc as [|? ? E _]; subst.
  assert (Ec : digitIs c (c - 48)). { replace c with (48 + (c - 48)) at 1 by lia. constructor. unfold isDigit in E. lia. }
  unfold isDigit in E. destruct d as [|c0 d'].
  - exists (c - 48). split; [constructor; [exact Ec|lia]|]. cbn. lia.
  - destruct (IH ltac:(discriminate) Hd) as (v & Hv & L). exists (v * 10 + (c - 48)). split; [constructor; [exact Hv|exact Ec|lia]|].
    rewrite app_length, Nat2Z.inj_add. cbn [length]. rewrite Z.pow_add_r by lia. change (10 ^ Z.of_nat 1) with 10. cbn [length] in L. lia.
Qed.
Lemma digits_small d : d <> [] -> (length d < 19)%nat -> Forall (fun c => isDigit c = true) d -> exists v, digitsIs 10 d v /\ v < 10 ^ 18.
Proof.
  intros H1 L H2. destruct (digits_value d H1 H2) as (v & Hv & Lv). exists v. split; [exact Hv|]. eapply Z.lt_le_trans; [exact Lv|]. apply Z.pow_le_mono_r; lia.
Qed.
Lemma zvalid_err {A} (b : bool) (a : A) : match (if b then Ok a else Err EFormat) with Ok _ => True | Err e => e = EFormat | UB => False end.
Proof. destruct b; cbn; auto. Qed.
Lemma toUInt64_err f t d : d <> [] -> Forall (fun c => isDigit c = true) d -> (exists p r, t = p ++ d ++ r) -> okOr f t (fun _ => True) (cvtZToUInt64 10 d).
Proof.
  intros Hne Hd (p & r & Et). assert (K : match cvtZToUInt64 10 d with Ok _ => True | Err e => e = EFormat | UB => False end).
  { unfold cvtZToUInt64, zToUInt64Internal. destruct (strtoull 10 d) as [[v e] q].
    match goal with |- match bind ?x _ with _ => _ end => assert (K : match x with Ok _ => True | Err e => e = EFormat | UB => False end) by apply zvalid_err; destruct x end;
      cbn [bind]; [destruct (startsMinus d); auto|exact K|exact K]. }
  destruct (cvtZToUInt64 10 d) eqn:E; cbn; [exact I| |contradiction]. right. split; [exact K|]. exists p, d, r. split; [exact Et|]. split; [exact Hd|].
  destruct (Nat.le_gt_cases 19 (length d)); [assumption|]. destruct (digits_small d Hne ltac:(assumption) Hd) as (v & Hv & Lv).
  assert (K2 : cvtZToUInt64 10 d = Ok v) by (apply cvtZToUInt64_spec; [lia|split; [now apply digits_unsigned|change two64 with 18446744073709551616; change (10 ^ 18) with 1000000000000000000 in Lv; lia]]).
  congruence.
Qed.
Lemma toInt64_err f t d : d <> [] -> Forall (fun c => isDigit c = true) d -> (exists p r, t = p ++ d ++ r) -> okOr f t (fun _ => True) (cvtZToInt64 10 (45 :: d)).
Proof.
  intros Hne Hd (p & r & Et). assert (K : match cvtZToInt64 10 (45 :: d) with Ok _ => True | Err e => e = EFormat | UB => False end).
  { unfold cvtZToInt64, zToInt64Internal. destruct (strtoll 10 (45 :: d)) as [[v e] q]. apply zvalid_err. }
  destruct (cvtZToInt64 10 (45 :: d)) eqn:E; cbn; [exact I| |contradiction]. right. split; [exact K|]. exists p, d, r. split; [exact Et|]. split; [exact Hd|].
  destruct (Nat.le_gt_cases 19 (length d)); [assumption|]. destruct (digits_small d Hne ltac:(assumption) Hd) as (v & Hv & Lv).
  assert (K2 : cvtZToInt64 10 (45 :: d) = Ok (- v)).
  { apply cvtZToInt64_spec; [lia|]. split; [right; exists [], d, v; split; [now left|auto]|].
    assert (0 <= v) by (apply digitsIs_nonneg in Hv; [exact Hv|lia..]). change two63 with 9223372036854775808. change (10 ^ 18) with 1000000000000000000 in Lv. lia. }
  congruence.
Qed.
Lemma number_any st : okOr false (jtext st) (fun p => exists x, snd p = setText st x /\ toks false (jtext st) true x /\ (length x < length (jtext st))%nat) (jsonReadNumber st).
Proof.
  unfold jsonReadNumber. cbv zeta. set (s := jtext st).
  set (neg := match s with 45 :: _ => true | _ => false end). set (d := spanDigits (if neg then tl s else s)).
  destruct (Nat.eqb_spec d 0); [cbn; auto|]. destruct (Nat.leb_spec 64 d); [cbn; auto|].
  assert (Hl : Forall (fun c => c <> 61 /\ c <> 34 /\ c <> 92) (firstn ((if neg then 1 else 0) + d) s) /\ ((if neg then 1 else 0) + d <= length s)%nat).
  { assert (Hd : forall x, Forall (fun c => isDigit c = true) x -> Forall (fun c => c <> 61 /\ c <> 34 /\ c <> 92) x).
    { intros x. apply Forall_impl. unfold isDigit. intros; lia. }
    destruct (spanDigits_spec (if neg then tl s else s)) as [H1 H2]. fold d in H1, H2. destruct neg eqn:En; [|split; [now apply Hd|exact H2]].
    unfold neg in En. destruct s as [|c s']; [discriminate|]. cbn [Nat.add firstn length tl] in *. split; [|lia]. constructor; [|now apply Hd].
    destruct (Z.eq_dec c 45) as [-> |Hne]; [lia|]. rewrite (match45 (c :: s') true false Hne) in En. discriminate. }
  destruct Hl as [Hl Hlen].
  assert (Hfin : exists x, setText st (skipn ((if neg then 1 else 0) + d) s) = setText st x /\ toks false s true x /\ (length x < length s)%nat).
  { eexists. split; [reflexivity|]. split; [|rewrite skipn_length; destruct neg; cbn [Nat.add] in *; lia]. rewrite (firstn_split ((if neg then 1 else 0) + d) s) at 1.
    apply toks_one, t_lit; [|exact Hl]. intros E. apply (f_equal (@length Z)) in E. rewrite firstn_length in E. destruct neg; cbn [Nat.add length] in *; lia. }
  eapply okOr_bind; [|intros v _; exact Hfin]. destruct (spanDigits_spec (if neg then tl s else s)) as [H1 H2]. fold d in H1, H2. destruct neg eqn:En.
  - unfold neg in En. destruct s as [|c s'] eqn:Es; [discriminate|]. destruct (Z.eq_dec c 45) as [-> |Hne]; [|rewrite (match45 (c :: s') true false Hne) in En; discriminate].
    cbn [tl] in H1, H2. cbn [Nat.add firstn]. apply toInt64_err; [|exact H1|exists [45], (skipn d s'); cbn; now rewrite firstn_skipn].
    intros E. apply (f_equal (@length Z)) in E. rewrite firstn_length in E. cbn [length] in E. lia.
  - cbn [Nat.add]. apply toUInt64_err; [|exact H1|exists [], (skipn d s); cbn; now rewrite firstn_skipn].
    intros E. apply (f_equal (@length Z)) in E. rewrite firstn_length in E. cbn [length] in E. lia.
Qed.
Lemma jbegins_spec s w : jbegins s w = true -> s = w ++ skipn (length w) s.
Proof. unfold jbegins. intros H. apply strEqb_eq in H. rewrite (firstn_split (length w) s) at 1. now rewrite H. Qed.
Lemma word_any s w : jbegins s w = true -> w <> [] -> Forall (fun c => c <> 61 /\ c <> 34 /\ c <> 92) w ->
  toks false s true (skipn (length w) s) /\ (length (skipn (length w) s) < length s)%nat.
Proof.
  intros H Hne Hw. apply jbegins_spec in H. set (r := skipn (length w) s) in *. rewrite H. split; [apply toks_one, t_lit; assumption|].
  rewrite app_length. destruct w; [congruence|]. cbn. lia.
Qed.
Lemma bool_any st : skipPre st -> okOr (vflag st) (jtext st) (fun p => valueDone st (snd p)) (jsonReadBool st).
Proof.
  intros H. unfold jsonReadBool. eapply okOr_bind; [apply (push_any _ _ H)|]. intros st1 (x & -> & Ht & Ho).
  change (jtext (pushed st x TBool)) with x. pose proof (suffix_len _ _ (toks_suffix _ _ _ _ Ht)) as L.
  destruct (jbegins x trueZ) eqn:E1; [|destruct (jbegins x falseZ) eqn:E2; [|cbn; auto]].
  - destruct (word_any _ _ E1) as [A B]; [discriminate|unfold trueZ; repeat constructor; discriminate|]. cbn [length trueZ] in A, B.
    exists (skipn 4 x). split; [reflexivity|]. split; [eapply toks_trans; eassumption|lia].
  - destruct (word_any _ _ E2) as [A B]; [discriminate|unfold falseZ; repeat constructor; discriminate|]. cbn [length falseZ] in A, B.
    exists (skipn 5 x). split; [reflexivity|]. split; [eapply toks_trans; eassumption|lia].
Qed.
Lemma null_any st : skipPre st -> okOr (vflag st) (jtext st) (fun p => valueDone st p) (jsonReadNull st).
Proof.
  intros H. unfold jsonReadNull. eapply okOr_bind; [apply (push_any _ _ H)|]. intros st1 (x & -> & Ht & Ho).
  change (jtext (pushed st x TNull)) with x. pose proof (suffix_len _ _ (toks_suffix _ _ _ _ Ht)) as L.
  destruct (jbegins x nullZ) eqn:E1; [|cbn; auto].
  destruct (word_any _ _ E1) as [A B]; [discriminate|unfold nullZ; repeat constructor; discriminate|]. cbn [length nullZ] in A, B.
  exists (skipn 4 x). split; [reflexivity|]. split; [eapply toks_trans; eassumption|lia].
Qed.
Lemma skipBody_ws r : hd 0 (jws r) = 34 -> skipBody r = Ok (tl (jws r)).
Proof.
  induction r as [|c r IH]; cbn [jws]; [discriminate|]. destruct (isWs c) eqn:E.
  - intros H. cbn [skipBody]. unfold isWs in E. destruct (Z.eqb_spec c 34); [lia|]. destruct (Z.eqb_spec c 92); [lia|]. exact (IH H).
  - cbn. intros ->. reflexivity.
Qed.
Lemma skipStr_any st : opens (jtext st) TString ->
  okOr false (jtext st) (fun st' => exists x, st' = setText st x /\ toks false (jtext st) true x /\ (length x < length (jtext st))%nat) (jsonReadSkipStr st).
Proof.
  intros Ho. unfold jsonReadSkipStr. assert (Hc : exists c r, jtext st = c :: r /\ (c = 34 \/ (c = 44 /\ hd 0 (jws r) = 34))).
  { destruct Ho as [H|(r & H & H2)].
    - destruct (jtext st) as [|c r] eqn:E; [discriminate|]. exists c, r. split; [reflexivity|]. left. exact (typeAt_char _ _ _ _ eq_refl H).
    - exists 44, r. split; [exact H|]. right. split; [reflexivity|]. destruct (jws r) as [|c q] eqn:E; [discriminate|]. exact (typeAt_char _ _ _ _ eq_refl H2). }
  destruct Hc as (c & r & E & Hc). rewrite E. cbn [jnext bind]. pose proof (skipBody_err _ r (le_n _)) as K. destruct (skipBody r) as [x|e|] eqn:Eb; cbn.
  - destruct (skipBody_suffix _ _ _ (le_n _) Eb) as [_ L]. exists x. split; [reflexivity|]. split; [|lia]. now apply toks_one, t_str.
  - left. exact K.
  - destruct Hc as [-> |[-> Hw]]; [exists r; split; [constructor|exact Eb]|]. rewrite (skipBody_ws r Hw) in Eb. discriminate.
Qed.

(** Containers *)
Lemma loop_any (obj : bool) r N body :
  (forall st first, jcomplete st = false -> jkey st = false -> jstack st = (obj, first) :: r -> (length (jtext st) < N)%nat ->
     okOr first (jtext st) (fun p => exists x, snd p = endState obj r true x /\ toks first (jtext st) true x /\ (length x < length (jtext st))%nat) (body tt st)) ->
  forall n st first, (length (jtext st) < n)%nat -> (length (jtext st) < N)%nat -> jcomplete st = false -> jkey st = false -> jstack st = (obj, first) :: r ->
  okOr first (jtext st) (fun p => exists x f, snd p = endState obj r f x /\ toks first (jtext st) f x)
    (readLoop n (if obj then TObjectEnd else TArrayEnd) body tt st).
Proof.
  intros Hb. induction n as [|n IH]; intros st first Hn HN Hc Hk Es; [lia|]. cbn [readLoop].
  destruct (tnic_cases st) as [-> |(t & -> & _)]; [cbn; auto|]. cbn [bind]. set (x := jws (jtext st)).
  pose proof (toks_ws first (jtext st)) as Hw. fold x in Hw. pose proof (toks_suffix _ _ _ _ Hw) as Hsf.
  pose proof (suffix_len _ _ Hsf) as L.
  destruct (jtypeEqb t _).
  - cbn. exists x, first. split; [|exact Hw]. unfold endState, setText. now rewrite Hc, Hk, Es.
  - eapply okOr_bind.
    + eapply okOr_toks; [exact Hw|]. apply (Hb (setText st x) first); [exact Hc|exact Hk|exact Es|cbn; lia].
    + intros [[] st'] (y & E & Hy & Ly). cbn [snd] in E. subst st'. cbn [jtext setText] in Hy, Ly.
      pose proof (toks_suffix _ _ _ _ Hy) as Hsf2.
      eapply okOr_impl; [eapply okOr_toks; [eapply toks_trans; [exact Hw|exact Hy]|apply (IH (endState obj r true y) true); [cbn; lia|cbn; lia|reflexivity|reflexivity|reflexivity]]|].
      intros p (z & f & Ep & Hz). exists z, f. split; [exact Ep|]. eapply toks_trans; [exact Hw|]. eapply toks_trans; [exact Hy|exact Hz].
Qed.
Lemma container_any (obj : bool) N body sx : skipPre sx -> (length (jtext sx) <= N)%nat ->
  (forall r st first, jcomplete st = false -> jkey st = false -> jstack st = (obj, first) :: r -> (length (jtext st) < N)%nat ->
     okOr first (jtext st) (fun p => exists x, snd p = endState obj r true x /\ toks first (jtext st) true x /\ (length x < length (jtext st))%nat) (body tt st)) ->
  okOr (vflag sx) (jtext sx) (fun st' => valueDone sx st' /\ exists c, c <> 34 /\ suffix (c :: jtext st') (jtext sx))
    (let* st := (let* st := jsonReadPush sx (if obj then TObjectBegin else TArrayBegin) false in jadvance st) in
     let* (_, st) := readLoop (loopFuel st) (if obj then TObjectEnd else TArrayEnd) body tt st in
     let* st := jsonReadPop st (if obj then TObjectEnd else TArrayEnd) in jadvance st).
Proof.
  intros Hpx HL Hb. eapply okOr_bind; [apply (begin_any sx obj Hpx)|].
  intros st1 (y & -> & Hy & Ly). pose proof (toks_suffix _ _ _ _ Hy) as Hsy.
  eapply okOr_bind.
  - eapply okOr_toks; [exact Hy|]. apply (loop_any obj (markFirst (jstack sx)) N body (Hb _)) with (st := endState obj (markFirst (jstack sx)) false y) (first := false);
      [unfold loopFuel; cbn; lia|cbn; lia|reflexivity|reflexivity|reflexivity].
  - intros [[] st2] (z & fl & E & Hz). cbn [snd] in E. subst st2. cbn [jtext endState] in Hz.
    pose proof (toks_suffix _ _ _ _ Hz) as Hsz.
    eapply okOr_impl; [eapply okOr_toks; [eapply toks_trans; [exact Hy|exact Hz]|apply (pop_any obj (markFirst (jstack sx)) fl z)]|].
    intros st3 (q & -> & Hq & Lq & c & Hc & Hs). split.
    2:{ exists c. split; [exact Hc|]. eapply suffix_trans; [exact Hs|]. eapply suffix_trans; [exact Hsz|exact Hsy]. }
    exists q. split; [unfold after; destruct (jstack sx) as [|[o g] ?]; reflexivity|].
    pose proof (suffix_len _ _ Hsz). pose proof (suffix_len _ _ Hsy). split; [|cbn [jtext endState] in *; lia].
    eapply toks_trans; [exact Hy|]. eapply toks_trans; [exact Hz|exact Hq].
Qed.
Lemma colon_any f s : okOr f s (fun x => toks f s false x /\ (length x < length s)%nat) (jsonReadColon s).
Proof.
  pose proof (jws_len s) as L. pose proof (fun f => toks_ws f s) as Hw.
  assert (D : jws s = 58 :: tl (jws s) \/ jsonReadColon s = Err EJsonFormat).
  { unfold jsonReadColon. destruct (jws s) as [|c r]; [now right|]. cbn [tl]. destruct c as [|p|p]; auto; do 6 (destruct p as [p|p|]; auto). }
  destruct D as [D|D]; [|rewrite D; cbn; auto]. unfold jsonReadColon. rewrite D in *. cbn [length tl] in *. split; [|lia].
  eapply toks_trans; [apply Hw|]. apply toks_one, t_sep. now right.
Qed.

Definition skipGood (f : nat) : Prop :=
  forall st, (length (jtext st) < f)%nat -> skipPre st -> okOr (vflag st) (jtext st) (valueDone st) (jsonReadSkipRecurse f st).
Lemma objBody_any f : skipGood f ->
  forall r s1 first, jcomplete s1 = false -> jkey s1 = false -> jstack s1 = (true, first) :: r -> (length (jtext s1) < f)%nat ->
  okOr first (jtext s1) (fun p => exists x, snd p = endState true r true x /\ toks first (jtext s1) true x /\ (length x < length (jtext s1))%nat) (skipObj f tt s1).
Proof.
    intros IH r s1 first Hc1 Hk1 Es1 L1. unfold skipObj. eapply okOr_bind; [apply (push_key _ _ _ Hc1 Hk1 Es1)|].
    intros s2 (y & -> & Hy & Ho). pose proof (toks_suffix _ _ _ _ Hy) as Hsy. pose proof (suffix_len _ _ Hsy) as Ly.
    eapply okOr_bind; [eapply okOr_toks; [exact Hy|]; apply (skipStr_any (mkJread y ((true, true) :: r) true false)); exact Ho|].
    intros s3 (z & -> & Hz & Lz). cbn [jtext setText] in Hz, Lz. pose proof (toks_suffix _ _ _ _ Hz) as Hsz.
    pose proof (suffix_trans _ _ _ Hsz Hsy) as Hsz'. cbn [jtext setText].
    eapply okOr_bind; [eapply okOr_toks; [eapply toks_trans; [exact Hy|exact Hz]|]; apply colon_any|]. intros q [Hq1 Hq2].
    pose proof (suffix_trans _ _ _ (toks_suffix _ _ _ _ Hq1) Hsz') as Hsq.
    eapply okOr_bind; [eapply okOr_toks; [eapply toks_trans; [exact Hy|]; eapply toks_trans; [exact Hz|exact Hq1]|]; apply (IH (mkJread q ((true, true) :: r) true false)); [cbn; lia|now split]|].
    intros s4 (v & -> & Hv & Lv). cbn [jtext] in Hv, Lv. cbn. exists v. split; [reflexivity|]. split; [|lia].
    eapply toks_trans; [exact Hy|]. eapply toks_trans; [exact Hz|]. eapply toks_trans; [exact Hq1|exact Hv].
Qed.
Lemma arrBody_any f : skipGood f ->
  forall r s1 first, jcomplete s1 = false -> jkey s1 = false -> jstack s1 = (false, first) :: r -> (length (jtext s1) < f)%nat ->
  okOr first (jtext s1) (fun p => exists x, snd p = endState false r true x /\ toks first (jtext s1) true x /\ (length x < length (jtext s1))%nat) (skipArr f tt s1).
Proof.
    intros IH r s1 first Hc1 Hk1 Es1 L1. unfold skipArr. assert (Ev : vflag s1 = first) by (unfold vflag; now rewrite Es1). rewrite <- Ev at 1. eapply okOr_bind; [apply IH; [exact L1|unfold skipPre; rewrite Es1; auto]|].
    intros st2 (z & -> & Hz & Lz). cbn. exists z. split; [apply (elem_after _ _ _ _ _ Es1)|]. split; [|exact Lz].
    unfold vflag in Hz. rewrite Es1 in Hz. exact Hz.
Qed.

Theorem skip_any fuel : forall st, (length (jtext st) < fuel)%nat -> skipPre st -> okOr (vflag st) (jtext st) (valueDone st) (jsonReadSkipRecurse fuel st).
Proof.
  induction fuel as [|f IH]; intros st Hf Hp; [lia|]. cbn [jsonReadSkipRecurse].
  destruct (tnic_cases st) as [-> |(t & -> & _)]; [cbn; auto|]. cbn [bind]. set (x := jws (jtext st)). set (sx := setText st x).
  assert (Hw : toks (vflag st) (jtext st) (vflag st) x) by apply toks_ws. pose proof (toks_suffix _ _ _ _ Hw) as Hsf. pose proof (suffix_len _ _ Hsf) as L.
  assert (Hpx : skipPre sx) by exact Hp.
  assert (Hdone : forall r, okOr (vflag sx) (jtext sx) (valueDone sx) r -> okOr (vflag st) (jtext st) (valueDone st) r).
  { intros r H. eapply okOr_toks; [exact Hw|]. eapply okOr_impl; [exact H|]. intros a (y & E & Hy & Ly). exists y. split; [exact E|].
    cbn [jtext sx setText] in *. split; [eapply toks_trans; [exact Hw|exact Hy]|lia]. }
  assert (Hsc : forall t (k : jread -> res jread), jtypeScalar t = true ->
    (forall s1, opens (jtext s1) t -> okOr false (jtext s1) (fun st' => exists x, st' = setText s1 x /\ toks false (jtext s1) true x /\ (length x < length (jtext s1))%nat) (k s1)) ->
    okOr (vflag sx) (jtext sx) (valueDone sx) (let* st := jsonReadPush sx t false in k st)).
  { intros t0 k Hs Hk. eapply okOr_bind; [apply (push_any _ _ Hpx)|]. intros st1 (y & -> & Hy & Ho).
    assert (Ey : pushed sx y t0 = after sx y) by (unfold pushed; destruct t0; cbn in Hs; try discriminate; reflexivity).
    rewrite Ey. pose proof (toks_suffix _ _ _ _ Hy) as Hsy. pose proof (suffix_len _ _ Hsy) as Ly.
    eapply okOr_toks; [exact Hy|]. eapply okOr_impl; [apply (Hk (after sx y)); exact Ho|].
    intros st' (z & -> & Hz & Lz). cbn [jtext after] in Hz, Lz. exists z. split; [reflexivity|]. split; [eapply toks_trans; [exact Hy|exact Hz]|lia]. }
  assert (Hobj : okOr (vflag st) (jtext st) (valueDone st)
    (let* st := jsonReadObjectBegin sx in let* (_, st) := readLoop (loopFuel st) TObjectEnd (skipObj f) tt st in jsonReadObjectEnd st)).
  { apply Hdone. eapply okOr_impl; [apply (container_any true f (skipObj f) sx Hpx); [cbn [jtext sx setText]; lia|]|intros a H; apply H].
    exact (objBody_any f IH). }
  destruct t; try exact Hobj.
  - apply Hdone. eapply okOr_impl; [apply (null_any _ Hpx)|auto].
  - apply Hdone. eapply okOr_bind; [apply (bool_any _ Hpx)|]. intros [b s1] H. exact H.
  - apply Hdone. apply (Hsc TNumber); [reflexivity|]. intros s1 _. eapply okOr_bind; [apply number_any|]. intros [[n v] s2] H. exact H.
  - apply Hdone. apply (Hsc TString); [reflexivity|]. intros s1 H. now apply skipStr_any.
  - apply Hdone. eapply okOr_impl; [apply (container_any false f (skipArr f) sx Hpx); [cbn [jtext sx setText]; lia|]|intros a H; apply H].
    exact (arrBody_any f IH).
Qed.

Theorem validate_any s : okOr false s (fun _ => toks false s true []) (jsonValidate s).
Proof.
  unfold jsonValidate, jsonReadSkip. eapply okOr_bind; [apply (skip_any _ (jsonReadNew s)); [cbn; lia|now split]|].
  intros st' (x & -> & Hx & _). cbn [jtext after jsonReadNew] in *. pose proof (toks_ws true x) as Hw. destruct (jws x) as [|c r]; [|cbn; auto].
  cbn. eapply toks_trans; [exact Hx|exact Hw].
Qed.
