(** C70: options come from the command line, then the environment, then the sections of the configuration *)
From Coq Require Import Lia String.
From Verif Require Import Base Str LsnModel LsnProof RegNameModel OptNameModel OptTableModel OptNameProof2 OptLoadModel OptLoadSpec OptLoadProof OptLoadProof2.
Open Scope Z_scope.
Open Scope list_scope.

Section Load.
Variable rules : list rule.
Variable deps : list deprecate.
Variable commands : list str.
Variable helpId versionId stanzaId : nat.
Variable roleValid : nat -> role -> bool.
Variable paramAllowed : nat -> bool.
Variable optionValid : nat -> role -> nat -> bool.
Let loadLine := loadLine rules deps commands helpId roleValid paramAllowed optionValid.
Let load := load rules deps commands helpId versionId stanzaId roleValid paramAllowed optionValid.

(** The arguments can be read as words; the options and the command are those *)
Definition lineOk (args : list str) (ws : list word) (c : cmdst) : Prop :=
  reads rules deps args ws /\ consistent (wordOpts ws) /\ commandOf commands helpId roleValid (wordArgs ws) c /\
  (wordArgs ws = [] -> forall g, In g (wordOpts ws) -> optionValid helpId RoleMain (gId g) = true) /\
  (cParams c <> [] -> cHelp c = true \/ paramAllowed (cCommand c) = true).

Lemma givenFor_in gs g : In g gs -> givenFor gs (gId g) (gKey g) <> [].
Proof. intros H E. assert (Q : In g (givenFor gs (gId g) (gKey g))) by (apply filter_In; rewrite Nat.eqb_refl, Z.eqb_refl; split; [exact H|reflexivity]). rewrite E in Q. destruct Q. Qed.
Lemma givenFor_ex gs i k : givenFor gs i k <> [] -> exists g, In g gs /\ gId g = i /\ gKey g = k.
Proof.
  intros N. destruct (givenFor gs i k) as [|g l] eqn:E; [congruence|]. assert (Q : In g (givenFor gs i k)) by (rewrite E; left; reflexivity). apply filter_In in Q. destruct Q as [Q1 Q2].
  apply Bool.andb_true_iff in Q2. destruct Q2 as [Q2 Q3]. apply Nat.eqb_eq in Q2. apply Z.eqb_eq in Q3. exists g. repeat split; assumption.
Qed.
Lemma commandOf_none l c : commandOf commands helpId roleValid l c -> (cSet c = false /\ cHelpSet c = false <-> l = []).
Proof. intros H. destruct H; cbn; split; intros Q; try (destruct Q; discriminate); try discriminate; try reflexivity. split; reflexivity. Qed.

Theorem C70_line_sound args c t : loadLine args = Ok (c, t) ->
  exists ws, lineOk args ws c /\ forall i k, getOpt t i k = valueGiven (givenFor (wordOpts ws) i k).
Proof.
  unfold loadLine, OptLoadModel.loadLine. destruct (takeArgs rules deps commands helpId roleValid args (mkCmdst helpId RoleMain false false false []) []) as [[c0 t0]| |] eqn:A; try discriminate. cbn [bind].
  destruct (takeArgs_sound rules deps commands helpId roleValid (S (List.length args)) args _ _ _ _ ltac:(lia) A) as (ws & W1 & W2 & W3).
  destruct (addAll_ok (wordOpts ws) [] [] t0 inv_nil consistent_nil W3) as [W4 W5]. cbn [app] in W4, W5. apply takeWords_spec in W2.
  destruct (negb (cSet c0) && negb (cHelpSet c0) && existsb _ t0) eqn:B1; [discriminate|]. destruct (negb (List.length (cParams c0) =? 0)%nat && negb (cHelp c0) && negb (paramAllowed (cCommand c0))) eqn:B2; [discriminate|].
  intros E. injection E as <- <-. exists ws. split; [|exact W5]. split; [exact W1|]. split; [exact W4|]. split; [exact W2|]. split.
  - intros N g Hg. apply (commandOf_none _ _ W2) in N. destruct N as [N1 N2]. rewrite N1, N2 in B1. cbn [negb andb] in B1.
    destruct (optionValid helpId RoleMain (gId g)) eqn:V; [reflexivity|]. exfalso.
    assert (G : getOpt t0 (gId g) (gKey g) <> None) by (rewrite W5; pose proof (givenFor_in _ _ Hg) as Q; destruct (givenFor (wordOpts ws) (gId g) (gKey g)); [congruence|discriminate]).
    destruct (getOpt t0 (gId g) (gKey g)) as [v|] eqn:G2; [|congruence]. apply get_in in G2.
    assert (X : existsb (fun e : nat * Z * pvalue => negb (optionValid helpId RoleMain (fst (fst e)))) t0 = true) by (apply existsb_exists; eexists; split; [exact G2|]; cbn; rewrite V; reflexivity). congruence.
  - intros N. destruct (cHelp c0); [left; reflexivity|]. right. destruct (paramAllowed (cCommand c0)); [reflexivity|]. destruct (cParams c0); [congruence|discriminate].
Qed.
Theorem C70_line_complete args ws c : lineOk args ws c -> exists t, loadLine args = Ok (c, t).
Proof.
  intros (W1 & W2 & W3 & W4 & W5). destruct (addAll_complete (wordOpts ws) [] [] inv_nil W2) as (t & A). exists t.
  destruct (addAll_ok (wordOpts ws) [] [] t inv_nil consistent_nil A) as [_ I]. cbn [app] in I.
  pose proof (proj2 (takeWords_spec _ _ _ _ _) W3) as W6.
  unfold loadLine, OptLoadModel.loadLine. change (mkCmdst helpId RoleMain false false false []) with (start helpId). rewrite (takeArgs_complete rules deps commands helpId roleValid args ws W1 _ _ _ _ W6 A). cbn [bind].
  replace (negb (cSet c) && negb (cHelpSet c) && existsb (fun e : nat * Z * pvalue => negb (optionValid helpId RoleMain (fst (fst e)))) t) with false.
  - replace (negb (List.length (cParams c) =? 0)%nat && negb (cHelp c) && negb (paramAllowed (cCommand c))) with false; [reflexivity|].
    destruct (cParams c) as [|p l]; [reflexivity|]. destruct (W5 ltac:(discriminate)) as [-> | ->]; rewrite ?Bool.andb_false_r; reflexivity.
  - symmetry. destruct (cSet c) eqn:S; [reflexivity|]. destruct (cHelpSet c) eqn:H; [reflexivity|]. cbn [negb andb]. pose proof (proj1 (commandOf_none _ _ W3) (conj S H)) as N.
    destruct (existsb _ t) eqn:X; [|reflexivity]. apply existsb_exists in X. destruct X as ([[i k] v] & X1 & X2). cbn in X2. apply in_get in X1. rewrite I in X1.
    destruct (givenFor_ex (wordOpts ws) i k) as (g & G1 & <- & <-); [intros Q; rewrite Q in X1; exact (X1 eq_refl)|]. rewrite (W4 N g G1) in X2. discriminate.
Qed.

(** No secure option is ever taken from the command line, and only list and hash options are given more than once *)
Theorem C70_line_options args ws : reads rules deps args ws -> forall g, In g (wordOpts ws) -> exists r, nth_error rules (gId g) = Some r /\ rSecure r = false /\ gMulti g = rMulti r.
Proof.
  intros RD. assert (LN : forall name o r neg arg, lineName rules deps name o r -> exists r', nth_error rules (gId (asGiven o r neg arg)) = Some r' /\ rSecure r' = false /\ gMulti (asGiven o r neg arg) = rMulti r').
  { intros name o r neg arg (_ & P & R & Q). exists r. unfold asGiven. apply parse_rule in P. destruct P as (r' & R' & M). rewrite R in R'. injection R' as <-.
    destruct (neg && rBoolLike r); cbn [gId gMulti]; repeat split; assumption. }
  induction RD; cbn [wordOpts]; intros g Hg; try (destruct Hg as [<-|Hg]; [eapply LN; eassumption|]); try (apply IHRD; exact Hg). destruct Hg.
Qed.

(** The stanza for the sections *)
Definition stanzaIs (t : table) (stanza : option str) : Prop :=
  match getOpt t stanzaId 0 with None => stanza = None | Some v => exists s l, pvValues v = s :: l /\ stanza = Some s end.

(** Help and version use only the command line.  For the other commands each option has the value of the command line, else (if the command allows the option) of the first variable in the
    environment, else of the first section that has it and may have it.  The files and the stanza are given by the options of the command line and the environment. *)
Theorem C70_precedence files args env c t : load files args env = Ok (c, t) ->
  exists ws, lineOk args ws c /\
  if (cCommand c =? helpId)%nat || (cCommand c =? versionId)%nat then forall i k, getOpt t i k = valueGiven (givenFor (wordOpts ws) i k)
  else exists t1 ini stanza name,
    (forall i k, decided rules deps [] (wordOpts ws) (optionValid (cCommand c) (cRole c)) env [] i k (getOpt t1 i k)) /\
    files t1 = Ok ini /\ stanzaIs t1 stanza /\ nth_error commands (cCommand c) = Some name /\
    forall i k, decided rules deps ini (wordOpts ws) (optionValid (cCommand c) (cRole c)) env (sectionsFor stanza name) i k (getOpt t i k).
Proof.
  unfold load, OptLoadModel.load. fold loadLine. destruct (loadLine args) as [[c0 t0]| |] eqn:L; try discriminate. cbn [bind].
  destruct (C70_line_sound args c0 t0 L) as (ws & W & V). destruct ((cCommand c0 =? helpId)%nat || (cCommand c0 =? versionId)%nat) eqn:HV.
  { intros E. injection E as <- <-. exists ws. split; [exact W|]. rewrite HV. exact V. }
  destruct (loadEnv rules deps optionValid (cCommand c0) (cRole c0) env t0) as [t1| |] eqn:E1; try discriminate. cbn [bind].
  destruct (files t1) as [ini| |] eqn:F; try discriminate. cbn [bind].
  destruct (loadFile rules deps commands stanzaId optionValid (cCommand c0) (cRole c0) ini t1) as [t2| |] eqn:E2; try discriminate. cbn [bind]. intros E. injection E as <- <-.
  exists ws. split; [exact W|]. rewrite HV. 
  pose proof (env_all rules deps optionValid (cCommand c0) (cRole c0) env t0 t1 E1) as N.
  unfold loadFile in E2. destruct (sectionList commands stanzaId (cCommand c0) t1) as [sections| |] eqn:S; try discriminate. cbn [bind] in E2.
  pose proof (sections_all rules deps optionValid (cCommand c0) (cRole c0) ini sections t1 t2 E2) as K.
  unfold sectionList in S. destruct (nth_error commands (cCommand c0)) as [name|] eqn:CN; [|discriminate].
  assert (ST : exists stanza, stanzaIs t1 stanza /\ sections = sectionsFor stanza name).
  { unfold stanzaIs. destruct (getOpt t1 stanzaId 0) as [v|].
    - destruct (pvValues v) as [|s l]; [discriminate|]. cbn [bind] in S. injection S as <-. exists (Some s). split; [exists s, l; split; reflexivity|reflexivity].
    - cbn [bind] in S. injection S as <-. exists None. split; reflexivity. }
  destruct ST as (stanza & ST & ->). exists t1, ini, stanza, name.
  assert (G : forall i k, getOpt t0 i k = None -> givenFor (wordOpts ws) i k = []) by (intros i k Q; rewrite V in Q; destruct (givenFor (wordOpts ws) i k); [reflexivity|discriminate]).
  assert (G' : forall i k v, getOpt t0 i k = Some v -> givenFor (wordOpts ws) i k <> [] /\ Some v = valueGiven (givenFor (wordOpts ws) i k)) by (intros i k v Q; rewrite V in Q; split; [intros Q2; rewrite Q2 in Q; discriminate|congruence]).
  split; [|split; [exact F|split; [exact ST|split; [reflexivity|]]]].
  - intros i k. specialize (N i k). destruct (getOpt t0 i k) as [v|] eqn:G0.
    + rewrite N. destruct (G' i k v G0) as [A1 A2]. rewrite A2. apply dcLine. exact A1.
    + destruct N as [(N1 & N2)|(value & v & r & N1 & N2 & N3 & N4 & N5)].
      * rewrite N1. apply dcNone; [exact (G i k G0)|]. intros VA. split; [exact (N2 VA)|]. intros r s _ [].
      * rewrite N5. exact (dcEnv _ _ _ _ _ _ _ _ _ r value v (G i k G0) N1 N2 N3 N4).
  - intros i k. specialize (N i k). specialize (K i k). destruct (getOpt t0 i k) as [v|] eqn:G0.
    + rewrite N in K. rewrite K. destruct (G' i k v G0) as [A1 A2]. rewrite A2. apply dcLine. exact A1.
    + destruct N as [(N1 & N2)|(value & v & r & N1 & N2 & N3 & N4 & N5)].
      * rewrite N1 in K. destruct K as [(K1 & K2)|(section & key & values & v & r & K1 & K2 & K3 & K4 & K5 & K6)].
        -- rewrite K1. apply dcNone; [exact (G i k G0)|]. intros VA. split; [exact (N2 VA)|exact (K2 VA)].
        -- rewrite K6. exact (dcFile _ _ _ _ _ _ _ _ _ r section key values v (G i k G0) K1 K2 (N2 K1) K3 K4 K5).
      * rewrite N5 in K. rewrite K. exact (dcEnv _ _ _ _ _ _ _ _ _ r value v (G i k G0) N1 N2 N3 N4).
Qed.

(** What the file must be for it to be read: the keys are known or unknown (and not errors), no two keys of a section are the same option, and each value that may be used is one *)
Definition fileOk (cmd : nat) (rl : role) (ini : list iniLine) (sections : list str) (t : table) : Prop :=
  forall s, In s sections ->
    (forall key, keyIn ini s key -> exists f, parseOption rules deps false false key = Ok f) /\
    (forall key key' i k r, keyIn ini s key -> keyIn ini s key' -> configName rules deps key i k -> configName rules deps key' i k -> nth_error rules i = Some r -> rSection r <> SecCommandLine -> key = key') /\
    (forall key i k r values, keyIn ini s key -> configName rules deps key i k -> nth_error rules i = Some r -> allowedIn r s -> optionValid cmd rl i = true -> getOpt t i k = None ->
       valuesOf ini s key values -> exists v, fileMeans r values v).
Lemma keys_ok cmd rl ini s keys t0 : forall before found t, NoDup (before ++ keys) -> (forall key, In key (before ++ keys) -> keyIn ini s key) -> fileOk cmd rl ini [s] t0 ->
  (forall i k, In (i, k) found -> exists key, In key before /\ configName rules deps key i k) -> (forall i k, getOpt t i k = None -> getOpt t0 i k = None) ->
  exists t', takeKeys rules deps optionValid cmd rl ini s keys found t = Ok t'.
Proof.
  induction keys as [|key keys IH]; intros before found t ND KI FO FI TT; cbn [takeKeys]; [eauto|].
  destruct (FO s (or_introl eq_refl)) as (F1 & F2 & F3). assert (KK : keyIn ini s key) by (apply KI, in_or_app; right; now left).
  assert (K : exists found' t', takeKeyLine rules deps optionValid cmd rl ini s key found t = Ok (found', t') /\ (found' = found \/ exists i k, found' = (i, k) :: found /\ configName rules deps key i k) /\
    (t' = t \/ exists i k v, t' = setOpt t i k v)).
  { unfold takeKeyLine. destruct (F1 key KK) as (f & P). rewrite P. cbn [bind]. destruct f as [o|]; [|eexists _, _; split; [reflexivity|auto]].
    destruct (oNegate o || oReset o) eqn:NR; [eexists _, _; split; [reflexivity|auto]|]. apply Bool.orb_false_iff in NR. destruct NR as (N1 & N2).
    assert (C : configName rules deps key (oId o) (oKeyIdx o)) by (exists o; repeat split; assumption). destruct (parse_rule _ _ _ _ _ _ P) as (r & R & M). rewrite R.
    destruct (existsb (fun e => (fst e =? oId o)%nat && (snd e =? oKeyIdx o)) found) eqn:EX.
    { destruct (rSection r) eqn:S; try (eexists _, _; split; [reflexivity|auto]).
      all: exfalso; apply existsb_exists in EX; destruct EX as ((i & k) & I & Q); apply Bool.andb_true_iff in Q; cbn [fst snd] in Q; destruct Q as (Q1 & Q2); apply Nat.eqb_eq in Q1; apply Z.eqb_eq in Q2; subst i k;
        destruct (FI _ _ I) as (key' & B & C'); assert (key = key') by (eapply (F2 key key'); [exact KK|apply KI, in_or_app; now left|exact C|exact C'|exact R|rewrite S; discriminate]); subst key';
        apply NoDup_remove_2 in ND; apply ND, in_or_app; now left. }
    assert (FV : allowedIn r s -> optionValid cmd rl (oId o) = true -> getOpt t (oId o) (oKeyIdx o) = None -> exists v, fileValue r o (iniValues ini s key) = Ok v).
    { intros A V G. destruct (F3 key _ _ r _ KK C R A V (TT _ _ G) (iniValues_of ini s key)) as (v & FM). unfold fileMeans in FM. unfold fileValue. destruct (iniValues ini s key) as [|a [|b x]]; [destruct FM| |].
      - destruct FM as (NE & FM). destruct (Nat.eqb_spec (List.length a) 0) as [L|L]; [destruct a; [congruence|discriminate]|]. destruct FM as [(T & BV)|(T & ->)].
        + apply isBool_spec in T. rewrite T. destruct BV as [(-> & _)|(-> & _)]; eexists; reflexivity.
        + apply isBool_not in T. rewrite T. eauto.
      - destruct FM as (FM & _). rewrite M, FM. eauto. }
    destruct (rSection r) eqn:S; [| |eexists _, _; split; [reflexivity|auto]].
    all: destruct (optionValid cmd rl (oId o)) eqn:V; cbn [negb]; [|eexists _, _; split; [reflexivity|]; split; [right; eauto|auto]].
    all: destruct (isGlobal s) eqn:IG; cbn [andb]; try (eexists _, _; split; [reflexivity|]; split; [right; now eauto|now auto]).
    all: destruct (getOpt t (oId o) (oKeyIdx o)) as [w|] eqn:G; [eexists _, _; split; [reflexivity|]; split; [right; eauto|auto]|].
    all: destruct FV as (v & ->); [split; [rewrite S; discriminate|]|reflexivity|reflexivity|cbn [bind]; eexists _, _; split; [reflexivity|]; split; [right; eauto|right; eauto]].
    all: rewrite S; try discriminate.
    all: intros _; split; [intros ->; discriminate IG|intros x ->; assert (X : isGlobal (global ++ 58 :: x) = true) by (apply isGlobal_spec; right; eauto); congruence]. }
  destruct K as (found' & t' & -> & FF & TF). cbn [bind fst snd]. apply (IH (before ++ [key])).
  - rewrite <- app_assoc. exact ND.
  - intros k0 H. apply KI. rewrite <- app_assoc in H. exact H.
  - exact FO.
  - intros i k H. destruct FF as [->|(i0 & k0 & -> & C)].
    + destruct (FI _ _ H) as (key' & B & C). exists key'. split; [apply in_or_app; now left|exact C].
    + destruct H as [H|H]; [injection H as <- <-; exists key; split; [apply in_or_app; right; now left|exact C]|destruct (FI _ _ H) as (key' & B & C'); exists key'; split; [apply in_or_app; now left|exact C']].
  - intros i k H. destruct TF as [->|(i0 & k0 & v & ->)]; [auto|]. apply TT. revert H. clear. induction t as [|[[i' k'] v'] t IH]; cbn [setOpt getOpt]; [reflexivity|].
    destruct ((i' =? i0)%nat && (k' =? k0)) eqn:E; cbn [getOpt].
    + apply Bool.andb_true_iff in E. destruct E as (E1 & E2). apply Nat.eqb_eq in E1. apply Z.eqb_eq in E2. subst. destruct ((i0 =? i)%nat && (k0 =? k)); [discriminate|auto].
    + destruct ((i' =? i)%nat && (k' =? k)); [discriminate|exact IH].
Qed.
Lemma distinct_nodup l : forall seen, NoDup (distinct l seen).
Proof. induction l as [|a l IH]; intros seen; cbn [distinct]; [constructor|]. destruct (existsb _ seen); [apply IH|]. constructor; [|apply IH]. intros H. apply distinct_in in H. apply (proj2 H). now left. Qed.
(** Such a file is read *)
Theorem C70_file_complete cmd rl ini t stanza name : nth_error commands cmd = Some name -> stanzaIs t stanza -> fileOk cmd rl ini (sectionsFor stanza name) t ->
  exists t', loadFile rules deps commands stanzaId optionValid cmd rl ini t = Ok t'.
Proof.
  intros C S F. unfold loadFile, sectionList. rewrite C.
  assert (E : (let* own := match getOpt t stanzaId 0 with None => Ok [] | Some v => match pvValues v with stanza :: _ => Ok [stanza ++ 58 :: name; stanza] | [] => UB end end in Ok (own ++ [global ++ 58 :: name; global])) = Ok (sectionsFor stanza name)).
  { unfold stanzaIs in S. destruct (getOpt t stanzaId 0) as [v|]; [destruct S as (s & l & E & ->); rewrite E; reflexivity|subst; reflexivity]. }
  rewrite E. cbn [bind]. clear E C S. assert (G : forall i k, getOpt t i k = None -> getOpt t i k = None) by auto. revert F G. generalize (sectionsFor stanza name) as ss.
  enough (K : forall ss t1, fileOk cmd rl ini ss t -> (forall i k, getOpt t1 i k = None -> getOpt t i k = None) -> exists t', takeSections rules deps optionValid cmd rl ini ss t1 = Ok t') by (intros ss; apply K).
  induction ss as [|s ss IH]; intros t1 F G; cbn [takeSections]; [eauto|].
  destruct (keys_ok cmd rl ini s (iniKeys ini s) t [] [] t1) as (t2 & E).
  - apply distinct_nodup.
  - intros key H. apply iniKeys_in. exact H.
  - intros s' [<-|[]]. apply F. now left.
  - intros i k [].
  - exact G.
  - rewrite E. cbn [bind]. apply IH; [intros s' H; apply F; now right|]. intros i k H. pose proof (keys_all rules deps optionValid cmd rl ini s _ _ _ _ E i k) as K. destruct (getOpt t1 i k) as [w|] eqn:X; [congruence|auto].
Qed.

(** What is decided is one value *)
Lemma boolValue_fun value v v' : boolValue value v -> boolValue value v' -> v = v'.
Proof. unfold boolValue. intros [(-> & ->)|(-> & ->)] [(E & ->)|(E & ->)]; try reflexivity; discriminate E. Qed.
Lemma envMeans_fun r value v v' : envMeans r value v -> envMeans r value v' -> v = v'.
Proof.
  intros (_ & [(A & B)|[(A & M & l & J & N & H & ->)|(A & M & ->)]]) (_ & [(A' & B')|[(A' & M' & l' & J' & N' & H' & ->)|(A' & M' & ->)]]); try congruence.
  - exact (boolValue_fun _ _ _ B B').
  - f_equal. rewrite <- (joinColon_split l N H), <- (joinColon_split l' N' H'). congruence.
Qed.
Lemma fileMeans_fun r values v v' : fileMeans r values v -> fileMeans r values v' -> v = v'.
Proof.
  unfold fileMeans. destruct values as [|a [|b l]]; [intros []| |].
  - intros (_ & [(A & B)|(A & ->)]) (_ & [(A' & B')|(A' & ->)]); try congruence. exact (boolValue_fun _ _ _ B B').
  - intros (_ & ->) (_ & ->). reflexivity.
Qed.
Lemma split_at {A} (b : list A) : forall x a b' x' a', b ++ x :: a = b' ++ x' :: a' -> (b = b' /\ x = x') \/ In x b' \/ In x' b.
Proof.
  induction b as [|y b IH]; intros x a b' x' a' E; destruct b' as [|y' b']; cbn [app] in E; injection E as E1 E2; subst.
  - left. split; reflexivity.
  - right. left. left. reflexivity.
  - right. right. left. reflexivity.
  - destruct (IH _ _ _ _ _ E2) as [(-> & ->)|[H|H]]; [left; split; reflexivity|right; left; right; exact H|right; right; right; exact H].
Qed.
Theorem C70_decided_one ini gs valid env sections i k v v' :
  decided rules deps ini gs valid env sections i k v -> decided rules deps ini gs valid env sections i k v' -> v = v'.
Proof.
  assert (FE : forall value, firstEnv rules deps env i k value -> inEnv rules deps env i k).
  { intros value (b & var & a & -> & E & _). exists var, value. split; [apply in_or_app; right; left; reflexivity|exact E]. }
  assert (FS : forall r section key, firstSection rules deps ini sections r i k section key -> In section sections /\ inSection rules deps ini section i k /\ allowedIn r section).
  { intros r section key (b & a & -> & K1 & K2 & K3 & _). split; [apply in_or_app; right; left; reflexivity|]. split; [exists key; split; assumption|exact K3]. }
  intros H H'.
  destruct H as [N|r value v G V R E M|r section key values v G V R NE FSe VO FM|G NN]; destruct H' as [N'|r' value' v' G' V' R' E' M'|r' section' key' values' v' G' V' R' NE' FSe' VO' FM'|G' NN'];
    try reflexivity; try (exfalso; congruence).
  - f_equal. rewrite R in R'. injection R' as <-. destruct E as (b & x & a & -> & E1 & E2). destruct E' as (b' & x' & a' & EQ & E1' & E2').
    destruct (split_at b x a b' x' a' EQ) as [(-> & ->)|[K|K]].
    + destruct (envNames_fun _ _ _ _ _ _ _ _ _ E1 E1') as (_ & _ & <-). exact (envMeans_fun r value v v' M M').
    + exfalso. apply E2'. exists x, value. split; assumption.
    + exfalso. apply E2. exists x', value'. split; assumption.
  - exfalso. exact (NE' (FE _ E)).
  - exfalso. exact (proj1 (NN' V) (FE _ E)).
  - exfalso. exact (NE (FE _ E')).
  - f_equal. rewrite R in R'. injection R' as <-. pose proof (FS _ _ _ FSe) as (_ & I1 & I2). pose proof (FS _ _ _ FSe') as (_ & I1' & I2').
    destruct FSe as (b & a & -> & K1 & K2 & K3 & K4 & K5). destruct FSe' as (b' & a' & EQ & K1' & K2' & K3' & K4' & K5').
    destruct (split_at b section a b' section' a' EQ) as [(-> & ->)|[K|K]].
    + rewrite (K4' key K1 K2) in *. unfold valuesOf in VO, VO'. assert (values = values') as -> by congruence. exact (fileMeans_fun r values' v v' FM FM').
    + exfalso. exact (K5' section K I1 I2).
    + exfalso. exact (K5 section' K I1' I2').
  - exfalso. destruct (FS _ _ _ FSe) as (I0 & I1 & I2). exact (proj2 (NN' V) r section R I0 I1 I2).
  - exfalso. exact (proj1 (NN V') (FE _ E')).
  - exfalso. destruct (FS _ _ _ FSe') as (I0 & I1 & I2). exact (proj2 (NN V') r' section' R' I0 I1 I2).
Qed.

(** An option that the command does not allow, or that is only for the command line, is not taken from a file *)
Theorem C70_not_from_config files args env c t i k v : load files args env = Ok (c, t) -> getOpt t i k = Some v -> pvParam v = false ->
  optionValid (cCommand c) (cRole c) i = true /\ pvReset v = false /\ exists r, nth_error rules i = Some r /\ (rSection r = SecCommandLine -> inEnv rules deps env i k).
Proof.
  intros L G P. destruct (C70_precedence _ _ _ _ _ L) as (ws & _ & D).
  assert (NP : forall gs, valueGiven gs = Some v -> False) by (intros gs E; destruct gs; [discriminate|]; injection E as <-; discriminate P).
  destruct ((cCommand c =? helpId)%nat || (cCommand c =? versionId)%nat).
  { exfalso. rewrite D in G. exact (NP _ G). }
  destruct D as (t1 & ini & stanza & name & _ & _ & _ & _ & D). specialize (D i k). rewrite G in D. remember (Some v) as ov eqn:EV. destruct D as [N|r value w Gn V R E M|r section key values w Gn V R NE FSe VO FM|Gn NN].
  - exfalso. exact (NP _ eq_refl).
  - injection EV as ->. split; [exact V|]. split.
    + destruct M as (_ & [(_ & [(_ & ->)|(_ & ->)])|[(_ & _ & l & _ & _ & _ & ->)|(_ & _ & ->)]]); reflexivity.
    + exists r. split; [exact R|]. intros _. destruct E as (b & x & a & -> & E1 & _). exists x, value. split; [apply in_or_app; right; left; reflexivity|exact E1].
  - injection EV as ->. split; [exact V|]. split.
    + unfold fileMeans in FM. destruct values as [|a [|b l]]; [destruct FM| |]; [destruct FM as (_ & [(_ & [(_ & ->)|(_ & ->)])|(_ & ->)]); reflexivity|destruct FM as (_ & ->); reflexivity].
    + exists r. split; [exact R|]. intros Q. destruct FSe as (b & a & _ & _ & _ & [A _] & _). congruence.
  - discriminate.
Qed.
End Load.
Print Assumptions C70_line_sound.
Print Assumptions C70_line_complete.
Print Assumptions C70_line_options.
Print Assumptions C70_precedence.
Print Assumptions C70_file_complete.
Print Assumptions C70_decided_one.
Print Assumptions C70_not_from_config.

(** A variable of the environment that has the prefix and no value at all is read beyond the end *)
Theorem C70_env_refuted rules deps optionValid cmd rl t : takeEnv rules deps optionValid cmd rl (txt "PGBACKREST_LOCK_PATH") t = UB.
Proof. reflexivity. Qed.
Print Assumptions C70_env_refuted.

(** The command line wins over the environment, which wins over the section of the stanza, which wins over the global section *)
Example C70_nontrivial :
  let run := load optRules optDeprecate optCommands 6 21 176 (fun _ _ => true) (fun _ => false) (fun _ _ _ => true) in
  let ini := [(txt "global", txt "log-level-console", txt "info"); (txt "global", txt "process-max", txt "2"); (txt "global", txt "repo1-path", txt "/g"); (txt "global", txt "compress-level", txt "9");
              (txt "main", txt "process-max", txt "3"); (txt "main", txt "pg1-path", txt "/pg"); (txt "main:backup", txt "compress-level", txt "1"); (txt "global", txt "pg2-path", txt "/x");
              (txt "other", txt "buffer-size", txt "1MiB")] in
  let env := [txt "PATH=/bin"; txt "PGBACKREST_REPO1_PATH=/e"; txt "PGBACKREST_STANZA=main"; txt "PGBACKREST_LOG_LEVEL_CONSOLE=error"; txt "PGBACKREST_REPO1_PATH=/e2"] in
  match run (fun _ => Ok ini) [txt "--log-level-console=detail"; txt "backup"; txt "--no-delta"] env with
  | Ok (c, t) => cCommand c = 3%nat /\
      map (fun e => (match nth_error optRules (fst (fst e)) with Some r => rName r | None => [] end, snd (fst e), pvNegate (snd e), pvParam (snd e), pvValues (snd e))) t =
      [(txt "log-level-console", 0, false, true, [txt "detail"]); (txt "delta", 0, true, true, []); (txt "repo-path", 0, false, false, [txt "/e"]); (txt "stanza", 0, false, false, [txt "main"]);
       (txt "compress-level", 0, false, false, [txt "1"]); (txt "process-max", 0, false, false, [txt "3"]); (txt "pg-path", 0, false, false, [txt "/pg"])]
  | _ => False
  end.
Proof. vm_compute. split; reflexivity. Qed.
