(** C73: the value of each option is what its rules say *)
From Coq Require Import Lia Sorting.Sorted String.
From Verif Require Import Base Str RegNameModel NumSpec OptNameModel OptLoadModel OptSizeModel OptSizeSpec OptValueModel OptValueSpec OptValueProof OptValueProof2 OptValueProof3 OptTableModel OptRuleTableModel OptRuleTableProof.
Open Scope Z_scope.
Open Scope list_scope.

(** Rules asked for one after the other, in the order of their kinds, are those of the first group that is for the command *)
Theorem C73_rules groups cmd l ks : rulesFor groups cmd l -> ordered l -> StronglySorted Z.lt ks -> Forall (fun k => 0 < k) ks ->
  List.length (answers groups cmd RStart ks) = List.length ks /\ forall i k, nth_error ks i = Some k ->
    forall r, nth_error (answers groups cmd RStart ks) i = Some (Some r) <-> In r l /\ kind r = k.
Proof.
  intros R O S P. apply rulesFor_iff in R. subst l. rewrite (answers_spec groups cmd ks O RStart 0); [|lia|reflexivity|constructor; assumption]. split; [apply map_length|].
  intros i k E r. rewrite nth_error_map, E. cbn [option_map]. split; [intros [= H]; apply look_some; exact H|]. intros [I K]. rewrite <- K. do 2 f_equal. apply look_in; assumption.
Qed.
Print Assumptions C73_rules.

Section Props.
Variable rules : list rule.
Variable sequence : nat -> bool.
Variable optional : nat -> list rgroup.
Variable cmd : nat.
Variable help : bool.
Variable bin : str.
Variable betaId : nat.
Variable first : str.
Variable t : table.
Notation resolve := (resolve rules sequence optional cmd help bin betaId first t).
Variable o : nat.
Variable r : rule.
Variable l : list orule.
Hypothesis RULES : rulesFor (optional o) cmd l.
Hypothesis ORDERED : ordered l.
Hypothesis ONE : forall x d vals, In (OValid x d vals) l -> oneType vals.

(** The value was given, and it was not reset or negated *)
Definition isGiven (k : Z) (v : pvalue) : Prop := getOpt t o k = Some v /\ pvReset v = false /\ (rType r = TBoolean \/ pvNegate v = false).
Definition notGiven (k : Z) : Prop := forall v, ~ isGiven k v.
(** Beta options need the option beta *)
Definition betaOff : Prop := rBeta r = true /\ o <> betaId /\ forall v, getOpt t betaId 0 = Some v -> pvNegate v = true.

Lemma isGiven_spec k v : isGiven k v <-> getOpt t o k = Some v /\ isSet t o k r = true.
Proof.
  unfold isGiven, isSet. split.
  - intros (E & RS & N). rewrite E. split; [reflexivity|]. rewrite RS. destruct N as [-> | ->]; [reflexivity|]. cbn [negb]. rewrite Bool.orb_true_r. reflexivity.
  - intros [E S]. rewrite E in S. split; [exact E|]. apply Bool.andb_true_iff in S. destruct S as [S1 S2]. split; [destruct (pvReset v); [discriminate|reflexivity]|]. apply Bool.orb_true_iff in S1. destruct S1 as [S1|S1]; [left; destruct (rType r); try discriminate; reflexivity|right; destruct (pvNegate v); [discriminate|reflexivity]].
Qed.
Lemma notGiven_spec k : notGiven k -> isSet t o k r = false.
Proof. intros N. destruct (isSet t o k r) eqn:S; [|reflexivity]. exfalso. destruct (getOpt t o k) as [v|] eqn:E; [apply (N v); apply isGiven_spec; split; [exact E|exact S]|unfold isSet in S; rewrite E in S; discriminate]. Qed.
Lemma beta_spec : betaError betaId t o r = true <-> betaOff.
Proof.
  unfold betaError, betaOff. rewrite !Bool.andb_true_iff, Bool.negb_true_iff, Nat.eqb_neq. split.
  - intros [[B N] H]. split; [exact B|]. split; [exact N|]. intros v E. rewrite E in H. exact H.
  - intros (B & N & H). split; [split; assumption|]. destruct (getOpt t betaId 0) as [v|]; [apply H; reflexivity|reflexivity].
Qed.
Lemma final_set v m x : cvSet x = true -> finalF sequence optional cmd help bin o r v m x = Ok (x, match rGroup r with Some _ => match cvSource x with SrcDefault => false | _ => true end | None => false end).
Proof. intros S. unfold finalF. rewrite S. cbn [negb andb orb]. destruct help; [|reflexivity]. destruct (defaultF _ _ _ _ _ _) as [[[y raw] q]|]; reflexivity. Qed.

(** A value that was given is taken if it is one the type and the rules allow, with its source, and it keeps the index of its group *)
Theorem C73_given c k idx v m sq : typed (rType r) l -> isGiven k v -> ~ betaOff -> met rules first c l idx m -> sequenced (sequence o) l sq ->
  (forall cv keep, resolve c o r k idx = Ok (cv, keep) ->
     exists x d q, valueIs (rType r) v l m sq x d q /\ cv = mkCval true (pvNegate v) false (if pvParam v then SrcParam else SrcConfig) x d q /\ (keep = true <-> exists g, rGroup r = Some g)) /\
  ((exists x d q, valueIs (rType r) v l m sq x d q) -> exists cv keep, resolve c o r k idx = Ok (cv, keep)).
Proof.
  intros T G B M S. apply rulesFor_iff in RULES. subst l. pose proof G as G'. apply isGiven_spec in G. destruct G as [E SE]. rewrite (resolve_eq rules sequence optional cmd help bin betaId first t o ORDERED). unfold resolveF. cbv zeta.
  assert (GV : given t o k = v) by (unfold given; rewrite E; reflexivity). rewrite GV, SE. destruct (met_spec rules optional cmd first o ORDERED ONE c idx true (pvParam v) m M) as (dflt & ->). cbn [bind].
  apply sequenced_spec in S. rewrite <- S. destruct (betaError betaId t o r) eqn:BE; [exfalso; apply B; apply beta_spec; exact BE|].
  destruct G' as (_ & RS & _). split.
  - destruct (setValueF (rType r) v sq m _) as [[[x d] q]| |] eqn:SV; cbn [bind fst snd]; try discriminate. intros cv keep H. rewrite final_set in H by reflexivity. cbn [cvSource] in H. injection H as <- <-. rewrite RS. exists x, d, q. split; [apply (setValueF_spec _ v sq m _ x d q ORDERED T); exact SV|]. split; [reflexivity|].
    unfold srcOf. destruct (rGroup r) as [g|]; [|split; [discriminate|intros [g H]; discriminate]]. split; [intros _; exists g; reflexivity|]. intros _. destruct (pvParam v); reflexivity.
  - intros (x & d & q & V). destruct (proj2 (proj2 (setValueF_spec _ v sq m _ x d q ORDERED T)) V) as (x' & ->). cbn [bind fst snd]. rewrite final_set by reflexivity. eexists. eexists. reflexivity.
Qed.
(** What is no number of the type, or one out of the range, is an invalid value *)
Theorem C73_invalid c k idx v m s rest : isNum (rType r) = true -> readable (rType r) v -> isGiven k v -> ~ betaOff -> met rules first c l idx m ->
  pvValues v = s :: rest -> (forall n, numberIs (rType r) s n -> ~ limitIs l m n) -> resolve c o r k idx = Err EOptionInvalidValue.
Proof.
  intros N RD G B M V H. apply rulesFor_iff in RULES. subst l. pose proof G as G'. apply isGiven_spec in G. destruct G as [E SE]. rewrite (resolve_eq rules sequence optional cmd help bin betaId first t o ORDERED). unfold resolveF. cbv zeta.
  assert (GV : given t o k = v) by (unfold given; rewrite E; reflexivity). rewrite GV, SE. destruct (met_spec rules optional cmd first o ORDERED ONE c idx true (pvParam v) m M) as (dflt & ->). cbn [bind].
  destruct (betaError betaId t o r) eqn:BE; [exfalso; apply B; apply beta_spec; exact BE|]. set (gl := groupRules (optional o) cmd) in *.
  assert (Q : forall sq, setValueF (rType r) v sq m gl = Err EOptionInvalidValue); [|rewrite Q; reflexivity]. intros sq.
  assert (NU : intValue (rType r) s <> UB). { apply (intValue_safe sequence optional cmd (fun _ => true) (fun _ => [])); [exact N|]. intros T. rewrite T in RD. destruct RD as (s' & r' & V' & P). rewrite V in V'. injection V' as <- <-. exact P. }
  assert (IE : forall e, intValue (rType r) s = Err e -> e = EOptionInvalidValue) by (intros e; unfold intValue; destruct (match rType r with TInteger => _ | TSize => _ | _ => _ end); congruence).
  pose proof (fun n => limits_spec gl m n ORDERED) as LI. pose proof (fun n => int_spec (rType r) s n N) as IS. unfold setValueF. rewrite V, N.
  assert (W : (let* n := intValue (rType r) s in match limits gl m with Some (lo, hi) => if (n <? lo) || (hi <? n) then Err EOptionInvalidValue else Ok (VInt n, n) | None => Ok (VInt n, n) end) = Err EOptionInvalidValue).
  { destruct (intValue (rType r) s) as [n|e|] eqn:I; cbn [bind]; [|f_equal; auto|congruence]. pose proof (proj1 (IS n) eq_refl) as NI. specialize (H n NI). rewrite LI in H. destruct (limits gl m) as [[lo hi]|]; [|destruct (H Logic.I)].
    destruct (Z.ltb_spec n lo), (Z.ltb_spec hi n); cbn [orb]; try reflexivity. exfalso. apply H. lia. }
  rewrite W. destruct (rType r); try discriminate N; reflexivity.
Qed.
(** A beta option that was given is an error without the option beta *)
Theorem C73_beta c k idx v m : isGiven k v -> betaOff -> met rules first c l idx m -> resolve c o r k idx = Err EOther.
Proof.
  intros G B M. apply rulesFor_iff in RULES. subst l. apply isGiven_spec in G. destruct G as [E SE]. rewrite (resolve_eq rules sequence optional cmd help bin betaId first t o ORDERED). unfold resolveF. cbv zeta.
  rewrite SE. destruct (met_spec rules optional cmd first o ORDERED ONE c idx true (pvParam (given t o k)) m M) as (dflt & ->). cbn [bind]. apply beta_spec in B. rewrite B. reflexivity.
Qed.
(** Else it is the default, then an error if a value is needed, and no value if it is not.  None of these keeps the index of the group. *)
Theorem C73_absent c k idx m sq : notGiven k -> (forall v, getOpt t o k = Some v -> pvNegate v = false) -> help = false -> met rules first c l idx m -> sequenced (sequence o) l sq ->
  let reset := match getOpt t o k with Some v => pvReset v | None => false end in
  (forall x raw q, defaultIs bin l m sq x raw q -> resolve c o r k idx = Ok (mkCval true false reset SrcDefault x (Some raw) q, false)) /\
  ((forall x raw q, ~ defaultIs bin l m sq x raw q) -> needed r l -> resolve c o r k idx = Err EOther) /\
  ((forall x raw q, ~ defaultIs bin l m sq x raw q) -> ~ needed r l -> resolve c o r k idx = Ok (mkCval false false reset SrcDefault VZero None 0, false)).
Proof.
  intros N NG HP M S reset. apply rulesFor_iff in RULES. subst l. apply notGiven_spec in N. rewrite (resolve_eq rules sequence optional cmd help bin betaId first t o ORDERED). unfold resolveF. cbv zeta.
  assert (GN : pvNegate (given t o k) = false) by (unfold given; destruct (getOpt t o k) as [v|]; [apply NG; reflexivity|reflexivity]). assert (GR : pvReset (given t o k) = reset) by (unfold given, reset; destruct (getOpt t o k); reflexivity).
  rewrite N, GN, GR. destruct (met_spec rules optional cmd first o ORDERED ONE c idx false (pvParam (given t o k)) m M) as (dflt & ->). cbn [bind]. apply sequenced_spec in S. unfold finalF. cbn [cvSet cvNegate cvReset cvSource]. rewrite GN. cbn [negb andb orb]. rewrite <- S.
  pose proof (default_spec optional cmd bin o m sq ORDERED) as D. pose proof (required_spec optional cmd o r ORDERED) as Q.
  assert (GF : forall b : bool, match rGroup r with Some _ => false | None => false end = false) by (intros _; destruct (rGroup r); reflexivity). split; [|split].
  - intros x raw q H. apply D in H. rewrite H. cbn [bind cvSource]. rewrite (GF true). reflexivity.
  - intros H ND. destruct (defaultF optional cmd bin o m sq) as [[[x raw] q]|]; [exfalso; apply (H x raw q); apply D; reflexivity|]. rewrite HP. apply Q in ND. rewrite ND. reflexivity.
  - intros H ND. destruct (defaultF optional cmd bin o m sq) as [[[x raw] q]|]; [exfalso; apply (H x raw q); apply D; reflexivity|]. rewrite HP. destruct (requiredF optional cmd o r); [exfalso; apply ND; apply Q; reflexivity|]. cbn [bind cvSource]. rewrite (GF true). reflexivity.
Qed.
(** An option that was negated has no value, no default and is never missing *)
Theorem C73_negated c k idx v m : getOpt t o k = Some v -> pvNegate v = true -> notGiven k -> help = false -> met rules first c l idx m ->
  exists keep, resolve c o r k idx = Ok (mkCval false true (pvReset v) (if pvParam v then SrcParam else SrcConfig) VZero None 0, keep) /\ (keep = true <-> exists g, rGroup r = Some g).
Proof.
  intros E NG N HP M. apply rulesFor_iff in RULES. subst l. apply notGiven_spec in N. rewrite (resolve_eq rules sequence optional cmd help bin betaId first t o ORDERED). unfold resolveF. cbv zeta.
  assert (GV : given t o k = v) by (unfold given; rewrite E; reflexivity). rewrite GV, N, NG. destruct (met_spec rules optional cmd first o ORDERED ONE c idx false (pvParam v) m M) as (dflt & ->). cbn [bind]. unfold finalF. cbn [cvSet]. rewrite NG, HP. cbn [negb andb orb bind cvSource].
  eexists. split; [reflexivity|]. unfold srcOf. destruct (rGroup r) as [g|]; [|split; [discriminate|intros [g H]; discriminate]]. split; [intros _; exists g; reflexivity|]. intros _. destruct (pvParam v); reflexivity.
Qed.
(** With a dependency that is not met a value from the command line is an error, and one from elsewhere is ignored: the option has no value, or the one the rule has for this.  What is missing: an
    option with indexes that depends on one without, see C73_dependency_read_refuted. *)
Theorem C73_unmet_partial c k idx dflt : unmet rules first c l idx dflt -> (forall d vals, In (OValid dflt d vals) l -> inAGroup rules d \/ idx = 0%nat) ->
  (forall v, isGiven k v -> pvParam v = true -> resolve c o r k idx = Err EOther) /\
  ((forall v, isGiven k v -> pvParam v = false) -> exists cv, resolve c o r k idx = Ok (cv, false) /\ cvSource cv = SrcDefault /\ cvDisplay cv = None /\
     match dflt with Some x => cvSet cv = true /\ cvValue cv = x | None => cvSet cv = false /\ cvValue cv = VZero end).
Proof.
  intros U IDX. apply rulesFor_iff in RULES. subst l. rewrite (resolve_eq rules sequence optional cmd help bin betaId first t o ORDERED). unfold resolveF. cbv zeta. split.
  - intros v G P. apply isGiven_spec in G. destruct G as [E SE]. assert (GV : given t o k = v) by (unfold given; rewrite E; reflexivity). rewrite GV, SE, P. pose proof U as U'.
    destruct (unmet_spec rules optional cmd first o ORDERED ONE c idx true true dflt U) as (d & vals & m & I & ->). cbn [andb]. destruct U' as (d' & vals' & dv & I' & V & _). destruct (look_in _ _ ORDERED I). pose proof (look_in _ _ ORDERED I) as Q. pose proof (look_in _ _ ORDERED I') as Q'. cbn [kind] in Q, Q'. rewrite Q in Q'. injection Q' as <- <-.
    assert (CV : confValue c d idx = Ok dv). { apply valueAt_spec in V. destruct (IDX d vals I) as [G| ->]; [apply grouped_spec in G; rewrite G in V; exact V|destruct (grouped rules d); exact V]. } rewrite CV. reflexivity.
  - intros G. assert (SP : isSet t o k r && pvParam (given t o k) = false).
    { destruct (isSet t o k r) eqn:S; [|reflexivity]. unfold given. destruct (getOpt t o k) as [v|] eqn:E; [|reflexivity]. apply (G v). apply isGiven_spec. split; [exact E|exact S]. }
    destruct (unmet_spec rules optional cmd first o ORDERED ONE c idx (isSet t o k r) (pvParam (given t o k)) dflt U) as (d & vals & m & I & ->). rewrite SP. cbn [bind]. destruct dflt as [x|]; eexists; (split; [reflexivity|]); cbn; auto.
Qed.

(** The options one after the other: each has one value for each index of its group, resolved with the values of those before it *)
Variable valid : nat -> bool.
Variable maps : nat -> list Z.
Notation resolveAll := (resolveAll rules sequence optional cmd help bin betaId first t valid maps).
Theorem C73_all order c' keep' : NoDup order -> resolveAll order [] [] = Ok (c', keep') ->
  (forall o, (In o order -> valid o = false) -> confGet c' o = None) /\
  (forall a o b, order = a ++ o :: b -> valid o = true -> exists r c0 k0 row, nth_error rules o = Some r /\ resolveAll a [] [] = Ok (c0, k0) /\ (forall d, In d a -> confGet c0 d = confGet c' d) /\ confGet c' o = Some row /\
     List.length row = List.length (keysFor maps r) /\ forall i k, nth_error (keysFor maps r) i = Some k -> exists cv b, nth_error row i = Some cv /\ resolve c0 o r k i = Ok (cv, b) /\
       (b = true -> forall g, rGroup r = Some g -> In (g, i) keep')).
Proof.
  intros ND H. split.
  - assert (G : forall order c keep c' keep' o, resolveAll order c keep = Ok (c', keep') -> (In o order -> valid o = false) -> confGet c' o = confGet c o).
    { clear. induction order as [|x order IH]; intros c keep c' keep' o H N; cbn [OptValueModel.resolveAll] in H; [injection H as <- <-; reflexivity|]. destruct (valid x) eqn:V.
      - destruct (nth_error rules x) as [r|]; [|discriminate]. destruct (resolveKeys _ _ _ _ _ _ _ _ _ _ _ _ _ _) as [[row ks]| |]; cbn [bind] in H; try discriminate. rewrite (IH _ _ _ _ o H (fun Q => N (or_intror Q))). apply confGet_tail. intros ->. rewrite N in V by (left; reflexivity). discriminate.
      - exact (IH _ _ _ _ o H (fun Q => N (or_intror Q))). }
    intros o' N. rewrite (G _ _ _ _ _ o' H N). reflexivity.
  - intros a o' b -> V. pose proof H as HK. rewrite all_app in H. destruct (resolveAll a [] []) as [[c0 k0]| |] eqn:A; cbn [bind fst snd] in H; try discriminate. pose proof H as HB. cbn [OptValueModel.resolveAll] in H. rewrite V in H. destruct (nth_error rules o') as [r'|] eqn:R; [|discriminate].
    destruct (OptValueModel.resolveKeys rules sequence optional cmd help bin betaId first t c0 o' r' (keysFor maps r') 0) as [[row ks]| |] eqn:K; cbn [bind fst snd] in H; try discriminate. pose proof (keys_spec _ _ _ _ _ _ _ _ _ _ _ _ _ _ _ _ K) as (K1 & K2 & K3).
    exists r', c0, k0, row. split; [reflexivity|]. split; [reflexivity|]. apply NoDup_remove in ND. destruct ND as [ND1 ND2]. split; [|split; [|split]].
    + intros d I. symmetry. apply (all_other rules sequence optional cmd help bin betaId first t valid maps (o' :: b) c0 k0 c' keep' d HB). intros [->|Q]; [apply ND2; apply in_or_app; left; exact I|]. clear - ND1 I Q. induction a as [|x a IH]; [destruct I|]. cbn in ND1. inversion ND1 as [|y z N1 N2]; subst. destruct I as [->|I]; [apply N1; apply in_or_app; right; exact Q|exact (IH N2 I)].
    + rewrite (all_other _ _ _ _ _ _ _ _ _ _ _ b _ _ _ _ o' H); [apply confGet_head|]. intros Q. apply ND2. apply in_or_app. right. exact Q.
    + exact K1.
    + intros i k E. destruct (K3 i k E) as (cv & b0 & Q1 & Q2 & Q3). exists cv, b0. split; [exact Q1|]. split; [exact Q3|]. intros -> g RG. apply (all_keep _ _ _ _ _ _ _ _ _ _ _ _ _ _ _ _ HK). right. exists a, o', b, c0, k0, r', row, ks. repeat split; try assumption. rewrite RG. reflexivity.
Qed.
(** An index is kept only if one of the options of the group keeps it *)
Theorem C73_keep order c' keep' g i : (forall o l, rulesFor (optional o) cmd l -> ordered l) ->
  resolveAll order [] [] = Ok (c', keep') -> In (g, i) keep' ->
  exists a o b r c0 k0 k cv, order = a ++ o :: b /\ valid o = true /\ nth_error rules o = Some r /\ rGroup r = Some g /\ resolveAll a [] [] = Ok (c0, k0) /\ nth_error (maps g) i = Some k /\
    resolve c0 o r k i = Ok (cv, true) /\ cvSource cv <> SrcDefault.
Proof.
  intros OR H I. apply (all_keep _ _ _ _ _ _ _ _ _ _ _ _ _ _ _ _ H) in I. destruct I as [[]|(a & o' & b & c0 & k0 & r' & row & ks & E & V & R & A & K & B & G)]. pose proof (keys_spec _ _ _ _ _ _ _ _ _ _ _ _ _ _ _ _ K) as (K1 & K2 & K3).
  assert (L : (i < List.length (keysFor maps r'))%nat) by (rewrite <- K2; apply nth_error_Some; rewrite B; discriminate). destruct (nth_error (keysFor maps r') i) as [k|] eqn:Q; [|apply nth_error_None in Q; lia].
  destruct (K3 i k Q) as (cv & b0 & Q1 & Q2 & Q3). rewrite B in Q2. injection Q2 as <-. cbn [Nat.add] in Q3.
  assert (S : (exists g', rGroup r' = Some g') /\ cvSource cv <> SrcDefault).
  { pose proof Q3 as Q4. rewrite (resolve_eq rules sequence optional cmd help bin betaId first t o') in Q4 by (apply (OR o'); apply rulesFor_iff; reflexivity). unfold resolveF in Q4. cbv zeta in Q4. destruct (dependF _ _ _ _ _ _ _ _ _) as [[[mt m] dflt]| |]; cbn [bind] in Q4; try discriminate.
    assert (F : forall x, finalF sequence optional cmd help bin o' r' (given t o' k) m x = Ok (cv, true) -> (exists g', rGroup r' = Some g') /\ cvSource cv <> SrcDefault).
    { intros x F. unfold finalF in F. match type of F with bind ?e _ = _ => destruct e as [y| |] end; cbn [bind] in F; try discriminate. injection F as -> F. destruct (rGroup r') as [g'|]; [|discriminate]. split; [exists g'; reflexivity|]. intros S. rewrite S in F. discriminate. }
    destruct mt; [|destruct dflt; discriminate]. destruct (isSet t o' k r'); [|cbn [bind] in Q4; exact (F _ Q4)]. destruct (betaError _ _ _ _); [discriminate|]. destruct (setValueF _ _ _ _ _) as [y| |]; cbn [bind] in Q4; try discriminate. exact (F _ Q4). }
  destruct S as [[g' RG] S]. rewrite RG in G. subst g'. exists a, o', b, r', c0, k0, k, cv. repeat split; try assumption. unfold keysFor in Q. rewrite RG in Q. exact Q.
Qed.
(** No value is read that was not resolved, if each option comes after the one it depends on, which is valid too and has the same indexes or none.  What is missing: see C73_dependency_read_refuted,
    and for times C72. *)
Theorem C73_safe_partial order : (forall o l, rulesFor (optional o) cmd l -> ordered l) ->
  (forall p o q, order = p ++ o :: q -> valid o = true -> exists r, nth_error rules o = Some r /\
     (forall l x d vals, rulesFor (optional o) cmd l -> In (OValid x d vals) l -> In d p /\ valid d = true /\ exists rd, nth_error rules d = Some rd /\
        (rGroup rd = rGroup r \/ (rGroup rd = None /\ ((List.length (keysFor maps r) <= 1)%nat \/ forall k, In k (keysFor maps r) -> pvParam (given t o k) = false)))) /\
     forall k, In k (keysFor maps r) -> isSet t o k r = true -> readable (rType r) (given t o k)) ->
  resolveAll order [] [] <> UB.
Proof.
  intros OR0 W. assert (OR : forall o, ordered (groupRules (optional o) cmd)) by (intros o'; apply (OR0 o'); apply rulesFor_iff; reflexivity). apply (all_safe rules sequence optional cmd help bin betaId first t valid maps OR order []); [intros x y []|]. intros p o' q E V. destruct (W p o' q E V) as (r' & R & D & S). exists r'. split; [exact R|]. split; [|exact S].
  intros x d vals I. cbn [app]. exact (D (groupRules (optional o') cmd) x d vals (proj2 (rulesFor_iff _ _ _) eq_refl) I).
Qed.
End Props.
Print Assumptions C73_given.
Print Assumptions C73_invalid.
Print Assumptions C73_beta.
Print Assumptions C73_absent.
Print Assumptions C73_negated.
Print Assumptions C73_unmet_partial.
Print Assumptions C73_all.
Print Assumptions C73_keep.
Print Assumptions C73_safe_partial.

(** * The tables of the program *)
(** All options are resolved, each once *)
Theorem C73_tables_order : NoDup optOrder /\ forall o, In o optOrder <-> (o < List.length optRules)%nat.
Proof. split; [exact (nodup_order true true)|]. intros o. change (List.length optRules) with 199%nat. split; [apply (ok_parts true true)|apply (ok_parts true true)]. Qed.
Print Assumptions C73_tables_order.
(** The rules are of the form the theorems above need *)
Theorem C73_tables_rules zst ssh2 o r cmd l : nth_error optRules o = Some r -> rulesFor (progOptional zst ssh2 o) cmd l -> ordered l /\ typed (rType r) l /\ forall x d vals, In (OValid x d vals) l -> oneType vals.
Proof.
  intros RE R. pose proof (rule_ok zst ssh2 o cmd l R) as RB. unfold ruleb in RB. rewrite (ruleAt_nth o r RE) in RB. apply Bool.andb_true_iff in RB. destruct RB as [RB _]. apply Bool.andb_true_iff in RB. destruct RB as [RB ONE]. apply Bool.andb_true_iff in RB. destruct RB as [OB TB].
  split; [apply sortedb_spec; exact OB|]. split; [apply typedb_spec; exact TB|]. intros x d vals I. rewrite forallb_forall in ONE. specialize (ONE _ I). apply oneTypeb_spec. exact ONE.
Qed.
Print Assumptions C73_tables_rules.
(** An option is resolved after the one it depends on, which is valid for all commands and roles it is valid for, and has the same indexes; but for pg-path, which depends on stanza *)
Theorem C73_tables_dependency zst ssh2 cmd role o r l x d vals : (role < 4)%nat -> nth_error optRules o = Some r -> progValid cmd role o = true -> rulesFor (progOptional zst ssh2 o) cmd l -> In (OValid x d vals) l ->
  progValid cmd role d = true /\ (exists a b c, optOrder = a ++ d :: b ++ o :: c) /\
  exists rd, nth_error optRules d = Some rd /\ (rGroup rd = rGroup r \/ (rName r = txt "pg-path" /\ rName rd = txt "stanza" /\ rGroup rd = None)).
Proof.
  intros RL RE V R I. destruct (dep_ok zst ssh2 cmd role o r l x d vals RL RE V R I) as (H1 & H2 & rd & H3 & H4). split; [exact H1|]. split; [exact H2|]. exists rd. split; [exact H3|]. destruct H4 as [H4|(-> & -> & H4)]; [left; exact H4|right].
  assert (E74 : option_map rName (nth_error optRules 74) = Some (txt "pg-path")) by reflexivity. assert (E176 : option_map rName (nth_error optRules 176) = Some (txt "stanza")) by reflexivity. rewrite RE in E74. rewrite H3 in E176. cbn [option_map] in E74, E176. split; [congruence|]. split; [congruence|exact H4].
Qed.
Print Assumptions C73_tables_dependency.
(** A default is what its text would be if it were given: the same value in the same range, and the same place in the list of values.  The default of cmd is the program itself. *)
Theorem C73_tables_default zst ssh2 o r cmd l bin m sq x raw q : nth_error optRules o = Some r -> rulesFor (progOptional zst ssh2 o) cmd l -> sequenced (progSequence o) l sq -> defaultIs bin l m sq x raw q ->
  (rType r = TString /\ x = VStr bin /\ raw = bin /\ q = 0) \/
  (rType r = TBoolean /\ q = 0 /\ ((x = VBool true /\ raw = txt "y") \/ (x = VBool false /\ raw = txt "n"))) \/
  (rType r <> TBoolean /\ valueIs (rType r) (mkPvalue false false false [raw]) l m sq x (Some raw) q).
Proof. exact (default_ok zst ssh2 o cmd r l bin m sq x raw q). Qed.
Print Assumptions C73_tables_default.
(** So resolving the options of the program reads nothing that is not there, for all commands and roles and all values given.  What is missing: pg-path from the command line with more than one index, see
    C73_dependency_read_refuted, and the times of C72. *)
Theorem C73_program_safe_partial zst ssh2 cmd role help bin betaId first t maps : (role < 4)%nat ->
  (forall o r k, nth_error optRules o = Some r -> isSet t o k r = true -> readable (rType r) (given t o k)) ->
  ((List.length (maps 0%nat) <= 1)%nat \/ forall k, pvParam (given t 74 k) = false) ->
  resolveAll optRules progSequence (progOptional zst ssh2) cmd help bin betaId first t (progValid cmd role) maps optOrder [] [] <> UB.
Proof.
  intros RL RD PG. apply C73_safe_partial.
  - intros o l R. pose proof (rule_ok zst ssh2 o cmd l R) as RB. unfold ruleb in RB. apply Bool.andb_true_iff in RB. destruct RB as [RB _]. apply Bool.andb_true_iff in RB. destruct RB as [RB _]. apply Bool.andb_true_iff in RB. destruct RB as [OB _]. apply sortedb_spec. exact OB.
  - intros p o q E V. assert (LO : (o < List.length optRules)%nat) by (apply C73_tables_order; rewrite E; apply in_or_app; right; left; reflexivity). destruct (nth_error optRules o) as [r|] eqn:RE; [|apply nth_error_None in RE; lia]. exists r. split; [reflexivity|]. split; [|intros k _; apply RD; exact RE].
    intros l x d vals R I. destruct (dep_ok zst ssh2 cmd role o r l x d vals RL RE V R I) as (VD & (a & b & c & EO) & rd & RDE & G). split; [|split; [exact VD|exists rd; split; [exact RDE|]]].
    + assert (ND : NoDup optOrder) by apply C73_tables_order. rewrite E in EO. replace (a ++ d :: b ++ o :: c) with ((a ++ d :: b) ++ o :: c) in EO by (rewrite <- app_assoc; reflexivity). rewrite E in ND.
      assert (SP : forall (p p' q q' : list nat), NoDup (p ++ o :: q) -> p ++ o :: q = p' ++ o :: q' -> p = p').
      { clear. induction p as [|x p IH]; intros [|y p'] q q' ND E; cbn in *; [reflexivity| | |].
        - injection E as <- E. inversion ND as [|u v N _]; subst. exfalso. apply N. apply in_or_app. right. left. reflexivity.
        - injection E as -> E. inversion ND as [|u v N _]; subst. exfalso. apply N. apply in_or_app. right. left. reflexivity.
        - injection E as -> E. inversion ND; subst. f_equal. apply (IH p' q q'); assumption. }
      rewrite (SP p (a ++ d :: b) q c ND EO). apply in_or_app. right. left. reflexivity.
    + destruct G as [G|(-> & -> & G)]; [left; exact G|right; split; [exact G|]]. assert (KE : option_map rGroup (nth_error optRules 74) = Some (Some 0%nat)) by reflexivity. rewrite RE in KE. cbn in KE. injection KE as KE. unfold keysFor. rewrite KE. destruct PG as [PG|PG]; [left; exact PG|right; intros k _; apply PG].
Qed.
Print Assumptions C73_program_safe_partial.

(** * What the code does else *)
(** check --pg2-path=/x without a stanza: the error message reads the second value of stanza, of which there is one *)
Definition pathTwo : table := [((74%nat, 1), mkPvalue false false true [txt "/x"])].
Theorem C73_dependency_read_refuted zst ssh2 : resolveAll optRules progSequence (progOptional zst ssh2) 4 false (txt "pgbackrest") 15 [] pathTwo (progValid 4 0) (fun g => match g with O => [0; 1] | _ => [0] end) optOrder [] [] = UB.
Proof. destruct zst, ssh2; vm_compute; reflexivity. Qed.
Print Assumptions C73_dependency_read_refuted.
(** A value that is not in a list with a value the program was built without: the error is one of the format of the rules *)
Theorem C73_allow_mark_refuted l s : (forall m, ~ In (AllowText s, m) l) -> (forall x, In x l -> exists s, fst x = AllowText s) -> allowValue true l s 0 = Err (if existsb snd l then EFormat else EOptionInvalidValue).
Proof.
  intros N T. unfold allowValue. pose proof (allowSearch_spec true s 0 l 0 T) as A. cbv zeta in A. destruct (allowSearch true l s 0 0) as [[q|]|e|]; cbn [bind].
  - destruct A as (i & _ & A & _). exfalso. apply (N false). exact (nth_error_In _ _ A).
  - destruct (existsb snd l); reflexivity.
  - destruct A as (_ & i & A & _). exfalso. apply (N true). exact (nth_error_In _ _ A).
  - destruct A.
Qed.
Print Assumptions C73_allow_mark_refuted.

(** backup with a zst level out of range, one in range, and the level that is the default for lz4 *)
Definition levelOf (ty level : option string) : table :=
  match ty with Some s => [((23%nat, 0), mkPvalue false false true [txt s])] | None => [] end ++ match level with Some s => [((21%nat, 0), mkPvalue false false false [txt s])] | None => [] end.
Definition levelFor (t : table) : res (option (list cval)) :=
  let* x := resolveAll optRules progSequence (progOptional true true) 3 false (txt "pgbackrest") 15 [] t (fun o => (o =? 23)%nat || (o =? 21)%nat) (fun _ => [0]) optOrder [] [] in Ok (confGet (fst x) 21).
Example C73_nontrivial :
  levelFor (levelOf (Some "zst"%string) (Some "23"%string)) = Err EOptionInvalidValue /\
  levelFor (levelOf (Some "zst"%string) (Some "22"%string)) = Ok (Some [mkCval true false false SrcConfig (VInt 22) (Some (txt "22")) 0]) /\
  levelFor (levelOf (Some "lz4"%string) None) = Ok (Some [mkCval true false false SrcDefault (VInt 1) (Some (txt "1")) 0]) /\
  levelFor (levelOf (Some "none"%string) (Some "5"%string)) = Ok (Some [mkCval true false false SrcDefault (VInt 0) None 0]) /\
  rulesFor (progOptional true true 21) 3 (snd (nth 0 (progOptional true true 21) (None, []))) /\
  (exists r, nth_error optRules 21 = Some r /\ rName r = txt "compress-level" /\ isGiven (levelOf (Some "zst"%string) (Some "22"%string)) 21 r 0 (mkPvalue false false false [txt "22"])).
Proof.
  split; [vm_compute; reflexivity|]. split; [vm_compute; reflexivity|]. split; [vm_compute; reflexivity|]. split; [vm_compute; reflexivity|]. split; [apply rulesFor_iff; reflexivity|].
  eexists. split; [reflexivity|]. split; [reflexivity|]. repeat split. right. reflexivity.
Qed.
