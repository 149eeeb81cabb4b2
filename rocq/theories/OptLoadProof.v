(** Reading options: the command line *)
From Coq Require Import Lia String List.
From Verif Require Import RegNameModel Base Str OptNameModel OptLoadModel OptLoadSpec.
Open Scope Z_scope.
Open Scope list_scope.

(** * The table *)
Lemma key_dec (i i' : nat) (k k' : Z) : {(i' =? i)%nat && (k' =? k) = true /\ i' = i /\ k' = k} + {(i' =? i)%nat && (k' =? k) = false /\ (i', k') <> (i, k)}.
Proof.
  destruct (Nat.eqb_spec i' i) as [->|N]; [|right; split; [reflexivity|congruence]]. destruct (Z.eqb_spec k' k) as [->|N]; [left; repeat split|right; split; [reflexivity|congruence]].
Qed.
Lemma get_set_same t i k v : getOpt (setOpt t i k v) i k = Some v.
Proof.
  induction t as [|[[i' k'] v'] t IH]; cbn [setOpt getOpt]; [rewrite Nat.eqb_refl, Z.eqb_refl; reflexivity|].
  destruct (key_dec i i' k k') as [(E & _)|(E & _)]; rewrite E; cbn [getOpt]; [rewrite Nat.eqb_refl, Z.eqb_refl; reflexivity|rewrite E; exact IH].
Qed.
Lemma get_set_other t i k v i' k' : (i, k) <> (i', k') -> getOpt (setOpt t i k v) i' k' = getOpt t i' k'.
Proof.
  intros N. induction t as [|[[i0 k0] v'] t IH]; cbn [setOpt getOpt].
  - destruct (key_dec i' i k' k) as [(_ & -> & ->)|(E & _)]; [congruence|]. rewrite E. reflexivity.
  - destruct (key_dec i i0 k k0) as [(E & -> & ->)|(E & _)]; rewrite E; cbn [getOpt].
    + destruct (key_dec i' i k' k) as [(_ & -> & ->)|(E2 & _)]; [congruence|]. rewrite E2. reflexivity.
    + rewrite IH. reflexivity.
Qed.
Lemma get_in t i k v : getOpt t i k = Some v -> In ((i, k), v) t.
Proof.
  induction t as [|[[i0 k0] v'] t IH]; cbn [getOpt]; [discriminate|]. destruct (key_dec i i0 k k0) as [(E & -> & ->)|(E & _)]; rewrite E; [intros H; injection H as <-; left; reflexivity|].
  intros H. right. apply IH. exact H.
Qed.
Lemma in_get t i k v : In ((i, k), v) t -> getOpt t i k <> None.
Proof.
  induction t as [|[[i0 k0] v'] t IH]; cbn [getOpt]; [intros []|]. intros [H|H].
  - injection H as -> -> ->. rewrite Nat.eqb_refl, Z.eqb_refl. discriminate.
  - destruct ((i0 =? i)%nat && (k0 =? k)); [discriminate|apply IH; exact H].
Qed.

(** * Adding what is given *)
Definition addGiven (t : table) (g : given) : res table := addOption t (gId g) (gKey g) (gNegate g) (gReset g) (gMulti g) (gArg g).
Fixpoint addAll (t : table) (gs : list given) : res table := match gs with [] => Ok t | g :: r => let* t := addGiven t g in addAll t r end.
Definition inv (t : table) (gs : list given) : Prop := forall i k, getOpt t i k = valueGiven (givenFor gs i k).

Lemma givenFor_app gs hs i k : givenFor (gs ++ hs) i k = givenFor gs i k ++ givenFor hs i k.
Proof. apply filter_app. Qed.
Lemma givenFor_same g : givenFor [g] (gId g) (gKey g) = [g].
Proof. unfold givenFor. cbn [filter]. rewrite Nat.eqb_refl, Z.eqb_refl. reflexivity. Qed.
Lemma givenFor_other g i k : (gId g, gKey g) <> (i, k) -> givenFor [g] i k = [].
Proof. intros N. unfold givenFor. cbn [filter]. destruct (key_dec i (gId g) k (gKey g)) as [(_ & E1 & E2)|(E & _)]; [congruence|]. rewrite E. reflexivity. Qed.
Lemma valueGiven_app g gs h : valueGiven ((g :: gs) ++ [h]) = Some (mkPvalue (gNegate g) (gReset g) true (flat_map argList (g :: gs) ++ argList h)).
Proof. cbn [app valueGiven]. change (g :: gs ++ [h]) with ((g :: gs) ++ [h]). rewrite flat_map_app. cbn [flat_map]. rewrite app_nil_r. reflexivity. Qed.

Lemma add_ok t gs g t' : inv t gs -> consistent gs -> addGiven t g = Ok t' -> consistent (gs ++ [g]) /\ inv t' (gs ++ [g]).
Proof.
  intros I C A. unfold addGiven, addOption in A. rewrite I in A. destruct (givenFor gs (gId g) (gKey g)) as [|h hs] eqn:G.
  - cbn [valueGiven] in A. injection A as <-. split.
    + intros i k. rewrite givenFor_app. destruct (key_dec i (gId g) k (gKey g)) as [(_ & <- & <-)|(_ & N)].
      * rewrite G, givenFor_same. exact Logic.I.
      * rewrite givenFor_other, app_nil_r by exact N. apply C.
    + intros i k. rewrite givenFor_app. destruct (key_dec i (gId g) k (gKey g)) as [(_ & <- & <-)|(_ & N)].
      * rewrite G, givenFor_same, get_set_same. cbn [app valueGiven flat_map]. rewrite app_nil_r. reflexivity.
      * rewrite givenFor_other, app_nil_r, get_set_other by exact N. apply I.
  - cbn [valueGiven pvNegate pvReset pvParam pvValues] in A.
    destruct (gNegate h && gNegate g) eqn:B1; [discriminate|]. destruct (gReset h && gReset g) eqn:B2; [discriminate|].
    destruct (gReset h && gNegate g || gNegate h && gReset g) eqn:B3; [discriminate|].
    destruct (Bool.eqb (gNegate h) (gNegate g)) eqn:B4; [|discriminate]. destruct (Bool.eqb (gReset h) (gReset g)) eqn:B5; [|discriminate]. cbn [negb] in A.
    apply Bool.eqb_prop in B4, B5. rewrite B4, Bool.andb_diag in B1. rewrite B5, Bool.andb_diag in B2.
    destruct (gArg g) as [a|] eqn:Ga; [|discriminate]. destruct (gMulti g) eqn:M; [|discriminate]. injection A as <-. split.
    + intros i k. rewrite givenFor_app. destruct (key_dec i (gId g) k (gKey g)) as [(_ & <- & <-)|(_ & N)].
      * rewrite G, givenFor_same. cbn [app]. assert (K : mayRepeat (h :: hs)) by (rewrite <- G; apply C). unfold mayRepeat in *.
        assert (Q : forall x, In x (hs ++ [g]) -> gNegate x = false /\ gReset x = false /\ gMulti x = true /\ gArg x <> None).
        { intros x Hx. apply in_app_or in Hx. destruct Hx as [Hx|[<-|[]]].
          - destruct hs as [|y hs]; [destruct Hx|]. destruct K as (_ & _ & K). apply K. exact Hx.
          - repeat split; try assumption. rewrite Ga. discriminate. }
        destruct hs as [|y hs]; cbn [app] in *; (split; [congruence|]; split; [congruence|exact Q]).
      * rewrite givenFor_other, app_nil_r by exact N. apply C.
    + intros i k. rewrite givenFor_app. destruct (key_dec i (gId g) k (gKey g)) as [(_ & <- & <-)|(_ & N)].
      * rewrite G, givenFor_same, get_set_same, valueGiven_app. replace (argList g) with [a] by (unfold argList; rewrite Ga; reflexivity). reflexivity.
      * rewrite givenFor_other, app_nil_r, get_set_other by exact N. apply I.
Qed.
Lemma add_complete t gs g : inv t gs -> consistent (gs ++ [g]) -> exists t', addGiven t g = Ok t'.
Proof.
  intros I C. unfold addGiven, addOption. rewrite I. specialize (C (gId g) (gKey g)). rewrite givenFor_app, givenFor_same in C.
  destruct (givenFor gs (gId g) (gKey g)) as [|h hs]; [eexists; reflexivity|]. cbn [valueGiven pvNegate pvReset pvParam pvValues].
  assert (Q : gNegate h = false /\ gReset h = false /\ gNegate g = false /\ gReset g = false /\ gMulti g = true /\ gArg g <> None).
  { cbn [app] in C. unfold mayRepeat in C. destruct (hs ++ [g]) as [|y ys] eqn:E; [destruct hs; discriminate|].
    destruct C as (C1 & C2 & C3). split; [exact C1|]. split; [exact C2|]. apply C3. rewrite <- E. apply in_or_app. right. left. reflexivity. }
  destruct Q as (-> & -> & -> & -> & -> & Q). cbn. destruct (gArg g) as [a|]; [|congruence]. eexists. reflexivity.
Qed.
Lemma consistent_app gs hs : consistent (gs ++ hs) -> consistent gs.
Proof.
  intros C i k. specialize (C i k). rewrite givenFor_app in C. unfold mayRepeat in *. destruct (givenFor gs i k) as [|g l]; [exact I|]. destruct l as [|h l]; [exact I|].
  cbn [app] in C. destruct C as (C1 & C2 & C3). split; [exact C1|]. split; [exact C2|]. intros x Hx. apply C3. destruct Hx as [<-|Hx]; [left; reflexivity|right; apply in_or_app; left; exact Hx].
Qed.
Lemma addAll_ok hs : forall t gs t', inv t gs -> consistent gs -> addAll t hs = Ok t' -> consistent (gs ++ hs) /\ inv t' (gs ++ hs).
Proof.
  induction hs as [|h hs IH]; intros t gs t' I C A.
  - injection A as <-. rewrite app_nil_r. split; assumption.
  - cbn [addAll] in A. destruct (addGiven t h) as [t1| |] eqn:E; try discriminate. cbn [bind] in A. destruct (add_ok t gs h t1 I C E) as [C1 I1].
    destruct (IH t1 (gs ++ [h]) t' I1 C1 A) as [C2 I2]. rewrite <- app_assoc in C2, I2. split; assumption.
Qed.
Lemma addAll_complete hs : forall t gs, inv t gs -> consistent (gs ++ hs) -> exists t', addAll t hs = Ok t'.
Proof.
  induction hs as [|h hs IH]; intros t gs I C; [eexists; reflexivity|]. cbn [addAll]. change (gs ++ h :: hs) with (gs ++ [h] ++ hs) in C. rewrite app_assoc in C.
  pose proof (consistent_app _ _ C) as C1. destruct (add_complete t gs h I C1) as (t1 & E). rewrite E. cbn [bind].
  destruct (add_ok t gs h t1 I (consistent_app _ _ C1) E) as [_ I1]. exact (IH t1 (gs ++ [h]) I1 C).
Qed.
Lemma inv_nil : inv [] [].
Proof. intros i k. reflexivity. Qed.
Lemma consistent_nil : consistent [].
Proof. intros i k. exact I. Qed.

(** * Texts *)
Lemma splitEqual_spec s : let '(n, v) := splitEqual s in ~ In 61 n /\ s = n ++ match v with Some a => 61 :: a | None => [] end.
Proof.
  induction s as [|c s IH]; cbn [splitEqual]; [split; [intros []|reflexivity]|]. destruct (Z.eqb_spec c 61) as [->|N]; [split; [intros []|reflexivity]|].
  destruct (splitEqual s) as [n v]. destruct IH as [H1 H2]. split; [intros [H|H]; [congruence|exact (H1 H)]|]. cbn [app]. congruence.
Qed.
Lemma splitEqual_none n : ~ In 61 n -> splitEqual n = (n, None).
Proof.
  induction n as [|c n IH]; intros H; cbn [splitEqual]; [reflexivity|]. destruct (Z.eqb_spec c 61) as [->|N]; [exfalso; apply H; left; reflexivity|].
  rewrite IH; [reflexivity|]. intros Q. apply H. right. exact Q.
Qed.
Lemma splitEqual_some n a : ~ In 61 n -> splitEqual (n ++ 61 :: a) = (n, Some a).
Proof.
  induction n as [|c n IH]; intros H; cbn [app splitEqual]; [reflexivity|]. destruct (Z.eqb_spec c 61) as [->|N]; [exfalso; apply H; left; reflexivity|].
  rewrite IH; [reflexivity|]. intros Q. apply H. right. exact Q.
Qed.

Section Line.
Variable rules : list rule.
Variable deps : list deprecate.
Variable commands : list str.
Variable helpId : nat.
Variable roleValid : nat -> role -> bool.
Let takeArgs := takeArgs rules deps commands helpId roleValid.
Let takeWord := takeWord commands helpId roleValid.
Let reads := reads rules deps.

Fixpoint takeWords (c : cmdst) (l : list str) : res cmdst := match l with [] => Ok c | a :: r => let* c := takeWord c a in takeWords c r end.

Lemma takeOption_given t r o neg arg t' : takeOption t r o neg arg = Ok t' -> rSecure r = false /\ addGiven t (asGiven o r neg arg) = Ok t'.
Proof.
  unfold takeOption, addGiven, asGiven. destruct (rSecure r); [discriminate|]. intros H. split; [reflexivity|]. destruct (neg && rBoolLike r); exact H.
Qed.
Lemma given_takeOption t r o neg arg : rSecure r = false -> takeOption t r o neg arg = addGiven t (asGiven o r neg arg).
Proof. unfold takeOption, addGiven, asGiven. intros ->. destruct (neg && rBoolLike r); reflexivity. Qed.
Lemma isBool_spec r : isBool r = true <-> rType r = TBoolean.
Proof. unfold isBool. destruct (rType r); split; congruence. Qed.
Lemma isBool_not r : isBool r = false <-> rType r <> TBoolean.
Proof. unfold isBool. destruct (rType r); split; congruence. Qed.

Lemma takeArgs_sound n : forall args c t c' t', (length args < n)%nat -> takeArgs args c t = Ok (c', t') ->
  exists ws, reads args ws /\ takeWords c (wordArgs ws) = Ok c' /\ addAll t (wordOpts ws) = Ok t'.
Proof.
  induction n as [|n IH]; intros args c t c' t' L A; [lia|]. destruct args as [|a rest].
  { injection A as <- <-. exists []. split; [constructor|]. split; reflexivity. }
  cbn [length] in L.
  assert (OPT : forall r o neg arg rest' t1, (length rest' < n)%nat -> takeOption t r o neg arg = Ok t1 -> takeArgs rest' c t1 = Ok (c', t') ->
    exists ws, reads rest' ws /\ takeWords c (wordArgs (WOpt (asGiven o r neg arg) :: ws)) = Ok c' /\ addAll t (wordOpts (WOpt (asGiven o r neg arg) :: ws)) = Ok t').
  { intros r o neg arg rest' t1 L1 T1 A1. apply takeOption_given in T1. destruct T1 as [_ T1]. destruct (IH rest' c t1 c' t' L1 A1) as (ws & W1 & W2 & W3).
    exists ws. split; [exact W1|]. split; [exact W2|]. cbn [wordOpts addAll]. rewrite T1. exact W3. }
  assert (WORD : (forall x, a <> 45 :: x) -> (let* c := takeWord c a in takeArgs rest c t) = Ok (c', t') ->
    exists ws, reads (a :: rest) ws /\ takeWords c (wordArgs ws) = Ok c' /\ addAll t (wordOpts ws) = Ok t').
  { intros N A1. destruct (takeWord c a) as [c1| |] eqn:E; try discriminate. cbn [bind] in A1. destruct (IH rest c1 t c' t' ltac:(lia) A1) as (ws & W1 & W2 & W3).
    exists (WArg a :: ws). split; [constructor; assumption|]. split; [cbn [wordArgs takeWords]; rewrite E; exact W2|exact W3]. }
  destruct a as [|c0 a]; [apply WORD; [discriminate|exact A]|].
  destruct (Z.eq_dec c0 45) as [->|N0].
  2: { apply WORD; [congruence|]. destruct c0 as [|p|p]; try exact A. do 7 (destruct p as [p|p|]; try exact A; try congruence). }
  clear WORD. destruct a as [|c1 a]; [discriminate A|]. destruct (Z.eq_dec c1 45) as [->|N1].
  2: { exfalso. destruct c1 as [|p|p]; try discriminate A. do 7 (destruct p as [p|p|]; try discriminate A; try congruence). }
  unfold takeArgs in A. cbn [OptLoadModel.takeArgs] in A. fold takeArgs in A.
  pose proof (splitEqual_spec a) as S. destruct (splitEqual a) as [name arg]. destruct S as [S1 S2].
  destruct (parseOption rules deps true false name) as [[o|]| |] eqn:P; try discriminate. cbn [bind] in A.
  destruct (nth_error rules (oId o)) as [r|] eqn:R; [|discriminate].
  assert (LN : rSecure r = false -> lineName rules deps name o r) by (intros Q; repeat split; assumption).
  assert (GO : forall neg ar rest', (length rest' < n)%nat -> (let* t0 := takeOption t r o neg ar in takeArgs rest' c t0) = Ok (c', t') ->
    rSecure r = false /\ exists ws, reads rest' ws /\ takeWords c (wordArgs (WOpt (asGiven o r neg ar) :: ws)) = Ok c' /\ addAll t (wordOpts (WOpt (asGiven o r neg ar) :: ws)) = Ok t').
  { intros neg ar rest' L1 A1. destruct (takeOption t r o neg ar) as [t1| |] eqn:T1; try discriminate. cbn [bind] in A1. split; [apply takeOption_given in T1; apply T1|]. exact (OPT r o neg ar rest' t1 L1 T1 A1). }
  assert (L1 : (length rest < n)%nat) by lia.
  destruct (negb (oNegate o) && negb (oReset o)) eqn:F.
  - assert (U : unflagged o) by (unfold unflagged; destruct (oNegate o), (oReset o); try discriminate; split; reflexivity).
    destruct (isBool r) eqn:B.
    + apply isBool_spec in B. destruct arg as [ar|].
      * destruct (strEqb ar no) eqn:E1; [|destruct (strEqb ar yes) eqn:E2; [|discriminate A]].
        -- apply strEqb_eq in E1. subst ar a. destruct (GO _ _ _ L1 A) as (Q & ws & W1 & W2 & W3). eexists. split; [apply rdNo; [exact (LN Q)|exact U|exact B|exact W1]|]. split; assumption.
        -- apply strEqb_eq in E2. subst ar a. destruct (GO _ _ _ L1 A) as (Q & ws & W1 & W2 & W3). eexists. split; [apply rdYes; [exact (LN Q)|exact U|exact B|exact W1]|]. split; assumption.
      * rewrite app_nil_r in S2. subst a. destruct (GO _ _ _ L1 A) as (Q & ws & W1 & W2 & W3). eexists. split; [apply rdBool; [exact (LN Q)|exact U|exact B|exact W1]|]. split; assumption.
    + apply isBool_not in B. destruct arg as [ar|].
      * subst a. destruct (GO _ _ _ L1 A) as (Q & ws & W1 & W2 & W3). eexists. split; [apply rdArg; [exact (LN Q)|exact U|exact B|exact W1]|]. split; assumption.
      * rewrite app_nil_r in S2. subst a. destruct (rBoolLike r) eqn:BL.
        -- destruct (GO _ _ _ L1 A) as (Q & ws & W1 & W2 & W3). eexists. split; [apply rdLike; [exact (LN Q)|exact U|exact B|exact BL|exact W1]|]. split; assumption.
        -- destruct rest as [|next rest]; [discriminate|]. cbn [length] in L1. destruct (GO _ _ rest ltac:(lia) A) as (Q & ws & W1 & W2 & W3). eexists.
           split; [apply rdNext; [exact (LN Q)|exact U|exact B|exact BL|exact W1]|]. split; assumption.
  - assert (U : flagged o) by (unfold flagged; destruct (oNegate o), (oReset o); try discriminate; tauto).
    destruct arg as [ar|]; [discriminate|]. rewrite app_nil_r in S2. subst a. destruct (GO _ _ _ L1 A) as (Q & ws & W1 & W2 & W3). eexists.
    split; [apply rdFlag; [exact (LN Q)|exact U|exact W1]|]. split; assumption.
Qed.

Lemma takeArgs_complete args ws : reads args ws -> forall c t c' t', takeWords c (wordArgs ws) = Ok c' -> addAll t (wordOpts ws) = Ok t' -> takeArgs args c t = Ok (c', t').
Proof.
  intros RD.
  assert (ADD : forall t r o neg arg gs t', rSecure r = false -> addAll t (asGiven o r neg arg :: gs) = Ok t' -> exists t1, takeOption t r o neg arg = Ok t1 /\ addAll t1 gs = Ok t').
  { intros t r o neg arg gs t' Q A. rewrite (given_takeOption t r o neg arg Q). cbn [addAll] in A. destruct (addGiven t (asGiven o r neg arg)) as [t1| |]; try discriminate. exists t1. split; [reflexivity|exact A]. }
  induction RD as [|a rest ws N RD IH|name o r rest ws (S & P & R & Q) F RD IH|name o r rest ws (S & P & R & Q) [F1 F2] B RD IH|name o r rest ws (S & P & R & Q) [F1 F2] B RD IH|
    name o r rest ws (S & P & R & Q) [F1 F2] B RD IH|name o r a rest ws (S & P & R & Q) [F1 F2] B RD IH|name o r rest ws (S & P & R & Q) [F1 F2] B L RD IH|name o r a rest ws (S & P & R & Q) [F1 F2] B L RD IH];
    intros c t c' t' W A.
  - injection W as <-. injection A as <-. reflexivity.
  - cbn [wordArgs takeWords] in W. destruct (takeWord c a) as [c1| |] eqn:E; try discriminate. cbn [bind] in W. specialize (IH c1 t c' t' W A).
    assert (K : takeArgs (a :: rest) c t = (let* c := takeWord c a in takeArgs rest c t)).
    { destruct a as [|c0 a]; [reflexivity|]. assert (N0 : c0 <> 45) by (intros ->; exact (N a eq_refl)). destruct c0 as [|p|p]; try reflexivity.
      do 7 (destruct p as [p|p|]; try reflexivity; try congruence). }
    rewrite K, E. exact IH.
  - unfold takeArgs. cbn [OptLoadModel.takeArgs]. fold takeArgs. rewrite splitEqual_none, P by exact S. cbn [bind]. rewrite R. cbn [wordArgs wordOpts] in *. destruct (ADD _ _ _ _ _ _ _ Q A) as (t1 & T1 & A1).
    replace (negb (oNegate o) && negb (oReset o)) with false by (destruct F as [-> | ->]; rewrite ?Bool.andb_false_r; reflexivity). match goal with |- bind ?x _ = _ => replace x with (Ok t1) by (symmetry; exact T1) end. cbn [bind]. apply IH; assumption.
  - unfold takeArgs. cbn [OptLoadModel.takeArgs]. fold takeArgs. rewrite splitEqual_none, P by exact S. cbn [bind]. rewrite R, F1, F2. cbn [negb andb wordArgs wordOpts] in *. apply isBool_spec in B. rewrite B.
    destruct (ADD _ _ _ _ _ _ _ Q A) as (t1 & T1 & A1). match goal with |- bind ?x _ = _ => replace x with (Ok t1) by (symmetry; exact T1) end. cbn [bind]. apply IH; assumption.
  - unfold takeArgs. cbn [OptLoadModel.takeArgs]. fold takeArgs. rewrite splitEqual_some, P by exact S. cbn [bind]. rewrite R, F1, F2. cbn [negb andb wordArgs wordOpts] in *. apply isBool_spec in B. rewrite B.
    destruct (ADD _ _ _ _ _ _ _ Q A) as (t1 & T1 & A1). change (strEqb yes no) with false. change (strEqb yes yes) with true. cbv iota. match goal with |- bind ?x _ = _ => replace x with (Ok t1) by (symmetry; exact T1) end. cbn [bind]. apply IH; assumption.
  - unfold takeArgs. cbn [OptLoadModel.takeArgs]. fold takeArgs. rewrite splitEqual_some, P by exact S. cbn [bind]. rewrite R, F1, F2. cbn [negb andb wordArgs wordOpts] in *. apply isBool_spec in B. rewrite B.
    destruct (ADD _ _ _ _ _ _ _ Q A) as (t1 & T1 & A1). change (strEqb no no) with true. cbv iota. match goal with |- bind ?x _ = _ => replace x with (Ok t1) by (symmetry; exact T1) end. cbn [bind]. apply IH; assumption.
  - unfold takeArgs. cbn [OptLoadModel.takeArgs]. fold takeArgs. rewrite splitEqual_some, P by exact S. cbn [bind]. rewrite R, F1, F2. cbn [negb andb wordArgs wordOpts] in *. apply isBool_not in B. rewrite B.
    destruct (ADD _ _ _ _ _ _ _ Q A) as (t1 & T1 & A1). match goal with |- bind ?x _ = _ => replace x with (Ok t1) by (symmetry; exact T1) end. cbn [bind]. apply IH; assumption.
  - unfold takeArgs. cbn [OptLoadModel.takeArgs]. fold takeArgs. rewrite splitEqual_none, P by exact S. cbn [bind]. rewrite R, F1, F2, L. cbn [negb andb wordArgs wordOpts] in *. apply isBool_not in B. rewrite B.
    destruct (ADD _ _ _ _ _ _ _ Q A) as (t1 & T1 & A1). match goal with |- bind ?x _ = _ => replace x with (Ok t1) by (symmetry; exact T1) end. cbn [bind]. apply IH; assumption.
  - unfold takeArgs. cbn [OptLoadModel.takeArgs]. fold takeArgs. rewrite splitEqual_none, P by exact S. cbn [bind]. rewrite R, F1, F2, L. cbn [negb andb wordArgs wordOpts] in *. apply isBool_not in B. rewrite B.
    destruct (ADD _ _ _ _ _ _ _ Q A) as (t1 & T1 & A1). match goal with |- bind ?x _ = _ => replace x with (Ok t1) by (symmetry; exact T1) end. cbn [bind]. apply IH; assumption.
Qed.

(** * The command *)
Lemma takeWords_set l : forall c, cSet c = true -> takeWords c l = Ok (mkCmdst (cCommand c) (cRole c) true (cHelpSet c) (cHelp c) (cParams c ++ l)).
Proof.
  induction l as [|a l IH]; intros c S; cbn [takeWords]; [rewrite app_nil_r, <- S; destruct c; reflexivity|].
  unfold takeWord, OptLoadModel.takeWord. rewrite S. cbn [bind]. rewrite IH by reflexivity. cbn. rewrite <- app_assoc. reflexivity.
Qed.
Definition start : cmdst := mkCmdst helpId RoleMain false false false [].
Lemma afterColon_spec w : match afterColon w with Some s => exists c, ~ In 58 c /\ w = c ++ 58 :: s | None => ~ In 58 w end.
Proof.
  induction w as [|x w IH]; cbn [afterColon]; [intros []|]. destruct (Z.eqb_spec x 58) as [->|N]; [exists []; split; [intros []|reflexivity]|].
  destruct (afterColon w) as [s|]; [destruct IH as (c & A & ->); exists (x :: c); split; [intros [H|H]; [congruence|exact (A H)]|reflexivity]|intros [H|H]; [congruence|exact (IH H)]].
Qed.
Lemma roleOf_spec w rl : roleOf w rl <-> match afterColon w with Some s => commandRole s | None => Ok RoleMain end = Ok rl.
Proof.
  pose proof (afterColon_spec w) as A. destruct (afterColon w) as [s|].
  - destruct A as (c & A & ->). unfold commandRole.
    assert (U : forall c' x, ~ In 58 c' -> c ++ 58 :: s = c' ++ 58 :: x -> s = x).
    { clear - A. induction c as [|y c IH]; intros [|y' c'] x N E; cbn [app] in E; [congruence|exfalso; apply N; left; congruence|exfalso; apply A; left; congruence|]. injection E as E1 E2.
      apply (IH ltac:(intros Q; apply A; now right) c' x); [intros Q; apply N; now right|exact E2]. }
    destruct (strEqb s (txt "async"%string)) eqn:E1; [|destruct (strEqb s (txt "local"%string)) eqn:E2; [|destruct (strEqb s (txt "remote"%string)) eqn:E3]].
    all: try (apply strEqb_eq in E1; subst s). all: try (apply strEqb_eq in E2; subst s). all: try (apply strEqb_eq in E3; subst s).
    all: split; [intros H|intros H; first [discriminate H|injection H as <-; cbn [roleOf]; exists c; split; [exact A|reflexivity]]].
    all: destruct rl; cbn [roleOf] in H; try reflexivity; try (exfalso; apply H, in_or_app; right; now left).
    all: destruct H as (c' & N & H); apply (U c' _ N) in H; first [discriminate H|subst s; discriminate].
  - split; [|intros H; injection H as <-; exact A]. destruct rl; cbn [roleOf]; [reflexivity| | |]; intros (c & _ & ->); exfalso; apply A, in_or_app; right; now left.
Qed.
Lemma takeWords_spec l c : takeWords start l = Ok c <-> commandOf commands helpId roleValid l c.
Proof.
  split.
  - intros H. destruct l as [|w l]; [injection H as <-; constructor|]. cbn [takeWords] in H. unfold takeWord, OptLoadModel.takeWord in H. cbn [cSet start cHelpSet] in H.
    destruct (commandId commands w) as [id| |] eqn:E; try discriminate. cbn [bind] in H. destruct (Nat.eqb_spec id helpId) as [->|N]; cbn [andb negb] in H.
    + cbn [bind] in H. destruct l as [|w2 l]; [injection H as <-; apply coHelp; exact E|]. cbn [takeWords] in H. unfold takeWord, OptLoadModel.takeWord in H. cbn [cSet start cHelpSet] in H.
      destruct (commandId commands w2) as [id2| |] eqn:E2; try discriminate. cbn [bind] in H. rewrite Bool.andb_false_r in H.
      destruct (match afterColon w2 with Some s => commandRole s | None => Ok RoleMain end) as [rl| |] eqn:R; try discriminate. cbn [bind andb] in H.
      destruct (roleValid id2 rl) eqn:V; [|discriminate]. cbn [negb] in H. destruct rl; try discriminate. cbn [negb bind] in H. rewrite takeWords_set in H by reflexivity. injection H as <-.
      apply coHelpFor; [exact E|exact E2|apply roleOf_spec; exact R|exact V].
    + destruct (match afterColon w with Some s => commandRole s | None => Ok RoleMain end) as [rl| |] eqn:R; try discriminate. cbn [bind andb] in H.
      destruct (roleValid id rl) eqn:V; [|discriminate]. cbn [negb bind] in H. rewrite takeWords_set in H by reflexivity. injection H as <-.
      apply coCommand; [exact E|exact N|apply roleOf_spec; exact R|exact V].
  - intros H. destruct H as [|h E|h w id params E E2 R V|w id rl params E N R V].
    + reflexivity.
    + cbn [takeWords]. unfold takeWord, OptLoadModel.takeWord. cbn [cSet start cHelpSet]. rewrite E. cbn [bind]. rewrite Nat.eqb_refl. reflexivity.
    + cbn [takeWords]. unfold takeWord, OptLoadModel.takeWord. cbn [cSet start cHelpSet]. rewrite E. cbn [bind]. rewrite Nat.eqb_refl. cbn [andb negb bind cSet cHelpSet cHelp cRole cParams cCommand].
      rewrite E2. cbn [bind]. rewrite Bool.andb_false_r. apply roleOf_spec in R. rewrite R. cbn [bind]. rewrite V. cbn [negb andb bind]. rewrite takeWords_set by reflexivity. reflexivity.
    + cbn [takeWords]. unfold takeWord, OptLoadModel.takeWord. cbn [cSet start cHelpSet]. rewrite E. cbn [bind]. apply Nat.eqb_neq in N. rewrite N. cbn [andb].
      apply roleOf_spec in R. rewrite R. cbn [bind]. rewrite V. cbn [negb andb bind]. rewrite takeWords_set by reflexivity. reflexivity.
Qed.
End Line.
