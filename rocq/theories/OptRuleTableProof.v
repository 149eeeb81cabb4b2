(** Checks of the tables of the program *)
From Coq Require Import Lia Sorting.Sorted String.
From Verif Require Import Base Str RegNameModel OptNameModel OptTableModel OptLoadModel OptValueModel OptValueSpec OptValueProof OptValueProof2 OptValueProof3 OptRuleTableModel.
Open Scope Z_scope.
Open Scope list_scope.

Definition allOptions : list nat := seq 0 199.
Definition allRoles : list nat := seq 0 4.

(** * Each check, and what it says *)
Fixpoint sortedb (l : list orule) : bool := match l with [] => true | a :: r => forallb (fun b => kind a <? kind b) r && sortedb r end.
Lemma sortedb_spec l : sortedb l = true -> ordered l.
Proof.
  induction l as [|a l IH]; intros H; [constructor|]. cbn [sortedb] in H. apply Bool.andb_true_iff in H. destruct H as [H1 H2]. constructor; [exact (IH H2)|]. apply Forall_forall. intros b Hb. rewrite forallb_forall in H1. specialize (H1 b Hb). apply Z.ltb_lt. exact H1.
Qed.
Definition oneTypeb (vals : list depval) : bool := forallb (fun x => match x with DepBool _ => true | _ => false end) vals || forallb (fun x => match x with DepText _ => true | _ => false end) vals.
Lemma oneTypeb_spec vals : oneTypeb vals = true -> oneType vals.
Proof.
  intros H. apply Bool.orb_true_iff in H. destruct H as [H|H]; rewrite forallb_forall in H; [left|right]; intros x Hx; specialize (H x Hx); destruct x as [b|s]; try discriminate; [exists b|exists s]; reflexivity.
Qed.
Definition typedb (ty : otype) (l : list orule) : bool :=
  forallb (fun r => match r with OAllow al => match ty with TStringId => forallb (fun x => match fst x with AllowText _ => true | _ => false end) al | TInteger | TSize | TTime => forallb (fun x => match fst x with AllowInt _ => true | _ => false end) al | _ => false end | _ => true end) l.
Lemma typedb_spec ty l : typedb ty l = true -> typed ty l.
Proof.
  intros H al I. unfold typedb in H. rewrite forallb_forall in H. specialize (H _ I). cbn in H.
  destruct ty; try discriminate; rewrite forallb_forall in H; intros x Hx; specialize (H x Hx); destruct (fst x) as [s|n]; try discriminate; [exists n|exists n|exists s|exists n]; reflexivity.
Qed.
(** Types of the rules: ranges are for numbers only, and a default is of the type of the option *)
Definition ovalEqb (a b : oval) : bool := match a, b with VZero, VZero => true | VBool x, VBool y => Bool.eqb x y | VInt x, VInt y => x =? y | VStr x, VStr y => strEqb x y | _, _ => false end.
Lemma ovalEqb_spec a b : ovalEqb a b = true -> a = b.
Proof. destruct a, b; cbn; try discriminate; intros H; [reflexivity|apply Bool.eqb_prop in H; congruence|apply Z.eqb_eq in H; congruence|apply strEqb_eq in H; congruence]. Qed.
Definition asGiven (ty : otype) (raw : str) : pvalue := mkPvalue (match ty with TBoolean => strEqb raw [110] | _ => false end) false false [raw].
(** A default is the value that its text would have if it were given *)
Definition defaultb (ty : otype) (l : list orule) (m : str) (sq : bool) (x : oval) (raw : str) (q : Z) : bool :=
  match ty with TBoolean => strEqb raw [110] || strEqb raw [121] | _ => true end &&
  match setValueF ty (asGiven ty raw) sq m l with
  | Ok (x', d, q') => ovalEqb x x' && (q =? q') && match ty, d with TBoolean, None => true | TBoolean, Some _ => false | _, Some s => strEqb s raw | _, None => false end
  | _ => false
  end.
Definition defaultsb (ty : otype) (l : list orule) (sq : bool) : bool :=
  forallb (fun r => match r with
    | ODefault DefDynamic => match ty with TString => true | _ => false end
    | ODefault (DefAll x raw q) => forallb (fun r => match r with ORange (RangeMap _) => false | _ => true end) l && defaultb ty l [] sq x raw (if sq then q else 0)
    | ODefault (DefMap dl) => negb sq && forallb (fun e => defaultb ty l (fst e) sq (fst (snd e)) (snd (snd e)) 0) dl
    | _ => true
    end) l.

(** The checks take the tables as arguments so that each is computed once *)
Section Check.
Variable rules : list rule.
Variable opts : list (list rgroup).
Variable valid : list (list (list nat)).
Variable sequences : list nat.
Variable order : list nat.
Definition ruleAt (o : nat) : rule := nth o rules (mkRule [] TBoolean SecGlobal None false false false false false false false false).
Definition validAt (cmd role o : nat) : bool := existsb (Nat.eqb cmd) (nth role (nth o valid []) []).
Definition sequenceAt (o : nat) : bool := existsb (Nat.eqb o) sequences.
Definition ruleb (o : nat) (l : list orule) : bool :=
  let ty := rType (ruleAt o) in
  sortedb l && typedb ty l && forallb (fun r => match r with OValid _ _ vals => oneTypeb vals | _ => true end) l && defaultsb ty l (match look l 2 with Some _ => negb (sequenceAt o) | None => sequenceAt o end).
Fixpoint before (l : list nat) (d o : nat) : bool := match l with [] => false | x :: r => if (x =? o)%nat then false else if (x =? d)%nat then true else before r d o end.
Definition groupEqb (a b : option nat) : bool := match a, b with None, None => true | Some x, Some y => (x =? y)%nat | _, _ => false end.
Definition forCmd (g : rgroup) (cmd : nat) : bool := match fst g with None => true | Some cmds => existsb (Nat.eqb cmd) cmds end.
Definition depb (o : nat) (g : rgroup) : bool :=
  forallb (fun r => match r with
    | OValid _ d _ => (d <? 199)%nat && before order d o && (groupEqb (rGroup (ruleAt d)) (rGroup (ruleAt o)) || ((o =? 74)%nat && (d =? 176)%nat && match rGroup (ruleAt d) with None => true | _ => false end)) &&
        forallb (fun role => forallb (fun cmd => if forCmd g cmd then validAt cmd role d else true) (nth role (nth o valid []) [])) allRoles
    | _ => true
    end) (snd g).
Definition checkb : bool :=
  (List.length rules =? 199)%nat && (List.length order =? 199)%nat && forallb (fun o => existsb (Nat.eqb o) order) allOptions && forallb (fun o => (o <? 199)%nat) order &&
  (List.length opts =? 199)%nat && forallb (fun l => (List.length l =? 4)%nat) valid && forallb (fun o => forallb (fun g => ruleb o (snd g) && depb o g) (nth o opts [])) allOptions.
End Check.
Lemma check_parts rules opts valid sequences order : checkb rules opts valid sequences order = true ->
  (forall o, (o < 199)%nat -> In o order) /\ (forall o, In o order -> (o < 199)%nat) /\ (forall o g, (o < 199)%nat -> In g (nth o opts []) -> ruleb rules sequences o (snd g) = true /\ depb rules valid order o g = true) /\ (forall l, In l valid -> List.length l = 4%nat).
Proof.
  intros T. unfold checkb in T. repeat (apply Bool.andb_true_iff in T; destruct T as [T ?H]). repeat split.
  - intros o L. rewrite forallb_forall in H3. specialize (H3 o). assert (I : In o allOptions) by (apply in_seq; lia). specialize (H3 I). apply existsb_exists in H3. destruct H3 as (x & Hx & E). apply Nat.eqb_eq in E. subst x. exact Hx.
  - intros o I. rewrite forallb_forall in H2. specialize (H2 o I). apply Nat.ltb_lt. exact H2.
  - rewrite forallb_forall in H. assert (I : In o allOptions) by (apply in_seq; lia). specialize (H o I). cbv beta in H. rewrite forallb_forall in H. specialize (H g H6). apply Bool.andb_true_iff in H. apply H.
  - rewrite forallb_forall in H. assert (I : In o allOptions) by (apply in_seq; lia). specialize (H o I). cbv beta in H. rewrite forallb_forall in H. specialize (H g H6). apply Bool.andb_true_iff in H. apply H.
  - intros l I. rewrite forallb_forall in H0. specialize (H0 l I). apply Nat.eqb_eq. exact H0.
Qed.
Lemma tables_ok zst ssh2 : checkb optRules (optOptional zst ssh2) optValid optSequence optOrder = true.
Proof. destruct zst, ssh2; vm_compute; reflexivity. Qed.

(** * What the tables are like *)
Section Tables.
Variables zst ssh2 : bool.
Lemma order_len : List.length optOrder = 199%nat. Proof. reflexivity. Qed.
Lemma rules_len : List.length optRules = 199%nat. Proof. reflexivity. Qed.
Lemma opts_len : List.length (optOptional zst ssh2) = 199%nat. Proof. reflexivity. Qed.
Lemma ok_parts : (forall o, (o < 199)%nat -> In o optOrder) /\ (forall o, In o optOrder -> (o < 199)%nat) /\ (forall o g, (o < 199)%nat -> In g (progOptional zst ssh2 o) -> ruleb optRules optSequence o (snd g) = true /\ depb optRules optValid optOrder o g = true) /\ (forall l, In l optValid -> List.length l = 4%nat).
Proof. exact (check_parts _ _ _ _ _ (tables_ok zst ssh2)). Qed.
Lemma optional_out o : (199 <= o)%nat -> progOptional zst ssh2 o = [].
Proof. intros L. apply nth_overflow. rewrite opts_len. exact L. Qed.
Lemma group_in o cmd l : rulesFor (progOptional zst ssh2 o) cmd l -> l = [] \/ exists g, In g (progOptional zst ssh2 o) /\ appliesTo cmd g /\ l = snd g.
Proof. intros [(a & g & b & E & _ & A & ->)|[_ ->]]; [right; exists g; split; [rewrite E; apply in_or_app; right; left; reflexivity|auto]|left; reflexivity]. Qed.
Lemma ruleAt_nth o r : nth_error optRules o = Some r -> ruleAt optRules o = r.
Proof. intros E. apply nth_error_nth. exact E. Qed.
Lemma rule_ok o cmd l : rulesFor (progOptional zst ssh2 o) cmd l -> ruleb optRules optSequence o l = true.
Proof.
  intros R. destruct (group_in o cmd l R) as [->|(g & I & _ & ->)]; [reflexivity|]. destruct (Nat.lt_ge_cases o 199) as [L|L]; [apply ok_parts; assumption|]. rewrite optional_out in I by exact L. destruct I.
Qed.
Lemma before_spec l d o : before l d o = true -> In o l -> exists a b c, l = a ++ d :: b ++ o :: c.
Proof.
  induction l as [|x l IH]; intros H I; [discriminate|]. cbn [before] in H. destruct (Nat.eqb_spec x o) as [->|N1]; [discriminate|]. destruct I as [->|I]; [congruence|]. destruct (Nat.eqb_spec x d) as [->|N2].
  - apply in_split in I. destruct I as (b & c & ->). exists [], b, c. reflexivity.
  - destruct (IH H I) as (a & b & c & ->). exists (x :: a), b, c. reflexivity.
Qed.
Lemma nodup_order : NoDup optOrder.
Proof.
  apply NoDup_incl_NoDup with (l := seq 0 199); [apply seq_NoDup|rewrite order_len, seq_length; lia|]. intros o I. apply ok_parts. apply in_seq in I. lia.
Qed.
Lemma dep_ok cmd role o r l x d vals : (role < 4)%nat -> nth_error optRules o = Some r -> progValid cmd role o = true -> rulesFor (progOptional zst ssh2 o) cmd l -> In (OValid x d vals) l ->
  progValid cmd role d = true /\ (exists a b c, optOrder = a ++ d :: b ++ o :: c) /\ exists rd, nth_error optRules d = Some rd /\ (rGroup rd = rGroup r \/ (o = 74%nat /\ d = 176%nat /\ rGroup rd = None)).
Proof.
  intros RL RE V R I. assert (LO : (o < 199)%nat) by (rewrite <- rules_len; apply nth_error_Some; rewrite RE; discriminate). destruct (group_in o cmd l R) as [->|(g & IG & AP & ->)]; [destruct I|]. destruct (proj1 (proj2 (proj2 ok_parts)) o g LO IG) as [_ D].
  unfold depb in D. rewrite forallb_forall in D. specialize (D _ I). cbv beta iota in D. apply Bool.andb_true_iff in D. destruct D as [D VD]. apply Bool.andb_true_iff in D. destruct D as [D GD]. apply Bool.andb_true_iff in D. destruct D as [LD BD]. apply Nat.ltb_lt in LD.
  split; [|split].
  - rewrite forallb_forall in VD. assert (IR : In role allRoles) by (apply in_seq; lia). specialize (VD role IR). cbv beta in VD. rewrite forallb_forall in VD. unfold progValid in V. apply existsb_exists in V. destruct V as (c & IC & EC). apply Nat.eqb_eq in EC. subst c. specialize (VD cmd IC). cbv beta in VD.
    assert (FC : forCmd g cmd = true). { unfold forCmd. unfold appliesTo in AP. destruct (fst g) as [cmds|]; [|reflexivity]. apply existsb_exists. exists cmd. split; [exact AP|apply Nat.eqb_refl]. }
    rewrite FC in VD. exact VD.
  - apply before_spec; [exact BD|]. apply ok_parts. exact LO.
  - destruct (nth_error optRules d) as [rd|] eqn:ED; [|apply nth_error_None in ED; rewrite rules_len in ED; lia]. exists rd. split; [reflexivity|]. rewrite (ruleAt_nth d rd ED), (ruleAt_nth o r RE) in GD. apply Bool.orb_true_iff in GD. destruct GD as [GD|GD].
    + left. destruct (rGroup rd), (rGroup r); cbn in GD; try discriminate; [apply Nat.eqb_eq in GD; congruence|reflexivity].
    + right. apply Bool.andb_true_iff in GD. destruct GD as [GD G3]. apply Bool.andb_true_iff in GD. destruct GD as [G1 G2]. apply Nat.eqb_eq in G1, G2. split; [exact G1|]. split; [exact G2|]. destruct (rGroup rd); [discriminate|reflexivity].
Qed.
Lemma setValueF_nomap ty v sq m m' l : (forall rs, ~ In (ORange (RangeMap rs)) l) -> setValueF ty v sq m l = setValueF ty v sq m' l.
Proof.
  intros N. assert (E : limits l m = limits l m'). { unfold limits. destruct (look l 3) as [x|] eqn:Q; [|reflexivity]. apply look_some in Q. destruct Q as [Q _]. destruct x; try reflexivity. destruct r; [reflexivity|]. exfalso. exact (N _ Q). }
  unfold setValueF. rewrite E. reflexivity.
Qed.
Lemma defaultb_spec ty l m sq x raw q : ordered l -> typed ty l -> defaultb ty l m sq x raw q = true ->
  (ty = TBoolean /\ q = 0 /\ ((x = VBool true /\ raw = [121]) \/ (x = VBool false /\ raw = [110]))) \/ (ty <> TBoolean /\ valueIs ty (mkPvalue false false false [raw]) l m sq x (Some raw) q).
Proof.
  intros O T D. unfold defaultb in D. apply Bool.andb_true_iff in D. destruct D as [B D]. destruct (setValueF ty (asGiven ty raw) sq m l) as [[[x' d] q']| |] eqn:S; try discriminate. apply Bool.andb_true_iff in D. destruct D as [D DD]. apply Bool.andb_true_iff in D. destruct D as [D1 D2]. apply ovalEqb_spec in D1. apply Z.eqb_eq in D2. subst x' q'.
  assert (C : ty = TBoolean \/ ty <> TBoolean) by (destruct ty; (left; reflexivity) || (right; discriminate)). destruct C as [->|N].
  - left. split; [reflexivity|]. cbn in S. injection S as <- _ <-. split; [reflexivity|]. apply Bool.orb_true_iff in B. destruct B as [B|B]; apply strEqb_eq in B; subst raw; [right|left]; auto.
  - right. split; [exact N|]. assert (AG : asGiven ty raw = mkPvalue false false false [raw]) by (unfold asGiven; destruct ty; try reflexivity; congruence). rewrite AG in S.
    assert (d = Some raw) as ->. { destruct ty; try congruence; destruct d as [s|]; try discriminate; apply strEqb_eq in DD; congruence. } apply setValueF_spec; assumption.
Qed.
Lemma default_ok o cmd r l bin m sq x raw q : nth_error optRules o = Some r -> rulesFor (progOptional zst ssh2 o) cmd l -> sequenced (progSequence o) l sq -> defaultIs bin l m sq x raw q ->
  (rType r = TString /\ x = VStr bin /\ raw = bin /\ q = 0) \/ (rType r = TBoolean /\ q = 0 /\ ((x = VBool true /\ raw = [121]) \/ (x = VBool false /\ raw = [110]))) \/ (rType r <> TBoolean /\ valueIs (rType r) (mkPvalue false false false [raw]) l m sq x (Some raw) q).
Proof.
  intros RE R SQ D. pose proof (rule_ok o cmd l R) as RB. unfold ruleb in RB. rewrite (ruleAt_nth o r RE) in RB. apply Bool.andb_true_iff in RB. destruct RB as [RB DB]. apply Bool.andb_true_iff in RB. destruct RB as [RB _]. apply Bool.andb_true_iff in RB. destruct RB as [OB TB]. apply sortedb_spec in OB. apply typedb_spec in TB.
  assert (SQE : (match look l 2 with Some _ => negb (sequenceAt optSequence o) | None => sequenceAt optSequence o end) = sq).
  { change (sequenceAt optSequence o) with (progSequence o). destruct (look l 2) as [y|] eqn:Q.
    - apply look_some in Q. destruct Q as [Q K]. destruct y; try discriminate K. destruct SQ as [[_ H]|[N _]]; [congruence|contradiction].
    - destruct SQ as [[I _]|[_ H]]; [exfalso; exact (look_none l 2 Q _ I eq_refl)|congruence]. }
  rewrite SQE in DB. unfold defaultsb in DB. rewrite forallb_forall in DB. destruct D as [(I & -> & -> & ->)|[(q0 & I & ->)|(dl & a & b & I & -> & _ & ->)]]; specialize (DB _ I); cbv beta iota in DB.
  - left. destruct (rType r); try discriminate. auto.
  - right. apply Bool.andb_true_iff in DB. destruct DB as [NM DB]. assert (N : forall rs, ~ In (ORange (RangeMap rs)) l) by (intros rs IR; rewrite forallb_forall in NM; specialize (NM _ IR); discriminate). apply defaultb_spec; try assumption. unfold defaultb in *. rewrite (setValueF_nomap _ _ _ m [] l N). exact DB.
  - right. apply Bool.andb_true_iff in DB. destruct DB as [_ DB]. rewrite forallb_forall in DB. apply defaultb_spec; try assumption. exact (DB (m, (x, raw)) ltac:(apply in_or_app; right; left; reflexivity)).
Qed.
End Tables.
