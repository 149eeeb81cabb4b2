(** Reading options: the environment and the configuration file *)
From Coq Require Import Lia.
From Verif Require Import Base Str LsnModel LsnProof OptNameModel OptNameProof2 OptLoadModel OptLoadSpec OptLoadProof.
Open Scope Z_scope.
Open Scope list_scope.

(** * Texts *)
Lemma joinColon_cons a b l : joinColon (a :: b :: l) = a ++ 58 :: joinColon (b :: l).
Proof. reflexivity. Qed.
Lemma splitOn_join s : joinColon (splitOn 58 s) = s /\ forall a, In a (splitOn 58 s) -> ~ In 58 a.
Proof.
  induction s as [|c s [IH1 IH2]]; cbn [splitOn]; [split; [reflexivity|intros a [<-|[]] []]|]. pose proof (splitOn_ne 58 s) as N. destruct (Z.eqb_spec c 58) as [->|Nc].
  - destruct (splitOn 58 s) as [|p ps]; [congruence|]. rewrite joinColon_cons. cbn [app]. rewrite IH1. split; [reflexivity|]. intros a [<-|H]; [intros []|apply IH2; exact H].
  - destruct (splitOn 58 s) as [|p ps]; [congruence|]. split.
    + destruct ps as [|q ps]; [cbn in *; congruence|]. rewrite joinColon_cons in *. cbn [app]. congruence.
    + intros a [<-|H]; [|apply IH2; right; exact H]. intros [H|H]; [congruence|]. exact (IH2 p (or_introl eq_refl) H).
Qed.
Lemma joinColon_split l : l <> [] -> (forall a, In a l -> ~ In 58 a) -> splitOn 58 (joinColon l) = l.
Proof.
  induction l as [|a l IH]; intros N H; [congruence|]. destruct l as [|b l].
  - cbn [joinColon]. apply splitOn_nosep. apply H. left. reflexivity.
  - rewrite joinColon_cons, splitOn_app by (apply H; left; reflexivity). f_equal. apply IH; [discriminate|]. intros x Hx. apply H. right. exact Hx.
Qed.
Lemma isGlobal_spec s : isGlobal s = true <-> s = global \/ exists x, s = global ++ 58 :: x.
Proof.
  unfold isGlobal. rewrite Bool.orb_true_iff, begins_spec. split.
  - intros [H|(e & H)]; [left; apply strEqb_eq; exact H|right]. rewrite <- app_assoc in H. exists e. exact H.
  - intros [->|(x & ->)]; [left; apply strEqb_refl|right]. exists x. rewrite <- app_assoc. reflexivity.
Qed.

(** * The store of the file *)
Lemma distinct_in l : forall seen a, In a (distinct l seen) <-> In a l /\ ~ In a seen.
Proof.
  induction l as [|b l IH]; intros seen a; cbn [distinct]; [tauto|].
  assert (M : existsb (strEqb b) seen = true <-> In b seen).
  { rewrite existsb_exists. split; [intros (x & H1 & H2); apply strEqb_eq in H2; subst x; exact H1|intros H; exists b; split; [exact H|apply strEqb_refl]]. }
  destruct (existsb (strEqb b) seen).
  - rewrite IH. pose proof (proj1 M eq_refl) as Hb. cbn [In]. split; [intros [H1 H2]; split; [right; exact H1|exact H2]|]. intros [[->|H1] H2]; [contradiction|split; assumption].
  - cbn [In]. rewrite IH. cbn [In]. destruct (list_eq_dec Z.eq_dec b a) as [->|N].
    + split; [|tauto]. intros _. split; [left; reflexivity|]. intros Q. apply M in Q. discriminate.
    + tauto.
Qed.
Lemma iniKeys_in ini s key : In key (iniKeys ini s) <-> keyIn ini s key.
Proof.
  unfold iniKeys, keyIn. rewrite distinct_in, in_map_iff. split.
  - intros [([[s' k'] v] & <- & H) _]. apply filter_In in H. destruct H as [H1 H2]. cbn in *. apply strEqb_eq in H2. subst s'. exists v. exact H1.
  - intros (v & H). split; [|intros []]. exists (s, key, v). split; [reflexivity|]. apply filter_In. split; [exact H|apply strEqb_refl].
Qed.
Lemma iniValues_of ini s key : valuesOf ini s key (iniValues ini s key).
Proof.
  unfold valuesOf, iniValues. induction ini as [|x ini IH]; cbn [filter map flat_map]; [reflexivity|]. destruct (strEqb (fst (fst x)) s && strEqb (snd (fst x)) key); cbn [map app]; congruence.
Qed.

Section Config.
Variable rules : list rule.
Variable deps : list deprecate.
Notation configName := (configName rules deps).
Notation envNames := (envNames rules deps).
Notation inEnv := (inEnv rules deps).
Notation firstEnv := (firstEnv rules deps).

Lemma parse_rule pm im c o : parseOption rules deps pm im c = Ok (Some o) -> exists r, nth_error rules (oId o) = Some r /\ oMulti o = rMulti r.
Proof.
  unfold parseOption. destruct (nameSizeMax <? length c)%nat; [discriminate|]. cbv zeta. destruct (takeKey _) as [[[k ix] name]| |]; try discriminate. cbn [bind].
  destruct (findOption rules deps pm im name ix) as [[[i dep]|]| |]; try discriminate. cbn [bind].
  match goal with |- (let* o0 := ?x in _) = _ -> _ => destruct x as [o'| |] eqn:K; try discriminate end. cbn [bind]. intros E. injection E as <-.
  unfold checkOption in K. destruct (nth_error rules i) as [r|] eqn:R; [|discriminate]. 
  repeat match type of K with (if ?b then _ else _) = _ => destruct b; [discriminate|] end. cbv zeta in K.
  repeat match type of K with (if ?b then _ else _) = _ => destruct b; [discriminate|] end. injection K as <-. exists r. split; [exact R|reflexivity].
Qed.
Lemma configName_fun c i k i' k' : configName c i k -> configName c i' k' -> i = i' /\ k = k'.
Proof. intros (o & H & _ & _ & <- & <-) (o' & H' & _ & _ & <- & <-). rewrite H in H'. injection H' as <-. split; reflexivity. Qed.
Lemma configName_rule c i k : configName c i k -> exists r, nth_error rules i = Some r.
Proof. intros (o & H & _ & _ & <- & _). apply parse_rule in H. destruct H as (r & H & _). exists r. exact H. Qed.
Lemma equal_split (a b x y : str) : a ++ 61 :: x = b ++ 61 :: y -> ~ In 61 a -> ~ In 61 b -> a = b /\ x = y.
Proof.
  intros H Ha Hb. pose proof (splitEqual_some a x Ha) as E. rewrite H, (splitEqual_some b y Hb) in E. injection E as -> ->. split; reflexivity.
Qed.
Lemma envNames_fun var i k v i' k' v' : envNames var i k v -> envNames var i' k' v' -> i = i' /\ k = k' /\ v = v'.
Proof.
  intros (a & E & Ha & C) (b & E' & Hb & C'). rewrite E in E'. apply app_inv_head in E'. apply equal_split in E'; [|exact Ha|exact Hb]. destruct E' as [-> ->].
  destruct (configName_fun _ _ _ _ _ C C') as [-> ->]. repeat split.
Qed.

(** * The environment *)
Variable optionValid : nat -> role -> nat -> bool.
Variable cmd : nat.
Variable rl : role.
Notation takeEnv := (takeEnv rules deps optionValid cmd rl).
Notation loadEnv := (loadEnv rules deps optionValid cmd rl).
Notation valid := (optionValid cmd rl).

Lemma boolValue_of value v : (if strEqb value no then Ok (mkPvalue true false false []) else if strEqb value yes then Ok (mkPvalue false false false []) else Err EOptionInvalidValue) = Ok v ->
  boolValue value v.
Proof.
  unfold boolValue. destruct (strEqb value no) eqn:E1; [intros H; injection H as <-; apply strEqb_eq in E1; right; split; [exact E1|reflexivity]|].
  destruct (strEqb value yes) eqn:E2; [|discriminate]. intros H; injection H as <-; apply strEqb_eq in E2; left; split; [exact E2|reflexivity].
Qed.
Lemma env_one var t t' : takeEnv var t = Ok t' ->
  (t' = t /\ forall i k value, envNames var i k value -> valid i = false \/ getOpt t i k <> None) \/
  (exists i k value v r, envNames var i k value /\ valid i = true /\ getOpt t i k = None /\ nth_error rules i = Some r /\ envMeans r value v /\ t' = setOpt t i k v).
Proof.
  unfold OptLoadModel.takeEnv. destruct (strBeginsWith var envPrefix) eqn:B; cbn [negb].
  2: { intros H. injection H as <-. left. split; [reflexivity|]. intros i k value (key & -> & _). exfalso.
       assert (Q : strBeginsWith (envPrefix ++ key ++ 61 :: value) envPrefix = true) by (apply begins_spec; eexists; reflexivity). congruence. }
  apply begins_spec in B. destruct B as (e & ->). rewrite skipn_app, skipn_all, Nat.sub_diag. cbn [skipn app].
  pose proof (splitEqual_spec e) as S. destruct (splitEqual e) as [key v]. destruct S as [S1 S2]. destruct v as [value|]; [|discriminate]. subst e.
  assert (NM : forall i k x, envNames (envPrefix ++ key ++ 61 :: value) i k x -> configName (map envChar key) i k).
  { intros i k x (key' & E & H1 & H2). apply app_inv_head in E. apply equal_split in E; [|exact S1|exact H1]. destruct E as [-> _]. exact H2. }
  destruct (parseOption rules deps false false (map envChar key)) as [[o|]| |] eqn:P; try discriminate; cbn [bind].
  2: { intros H. injection H as <-. left. split; [reflexivity|]. intros i k x H. apply NM in H. destruct H as (o & H & _). congruence. }
  assert (Q : forall i k x, envNames (envPrefix ++ key ++ 61 :: value) i k x -> oNegate o = false /\ oReset o = false /\ i = oId o /\ k = oKeyIdx o).
  { intros i k x H. apply NM in H. destruct H as (o' & H & H1 & H2 & <- & <-). rewrite P in H. injection H as <-. repeat split; assumption. }
  destruct (oNegate o || oReset o) eqn:NR.
  { intros H. injection H as <-. left. split; [reflexivity|]. intros i k x H. apply Q in H. destruct H as (H1 & H2 & _). rewrite H1, H2 in NR. discriminate. }
  destruct (valid (oId o)) eqn:V; cbn [negb].
  2: { intros H. injection H as <-. left. split; [reflexivity|]. intros i k x H. apply Q in H. destruct H as (_ & _ & -> & _). left. exact V. }
  destruct (Nat.eqb_spec (length value) 0) as [L|L]; [discriminate|].
  destruct (getOpt t (oId o) (oKeyIdx o)) as [w|] eqn:G.
  { intros H. injection H as <-. left. split; [reflexivity|]. intros i k x H. apply Q in H. destruct H as (_ & _ & -> & ->). right. congruence. }
  destruct (parse_rule _ _ _ _ P) as (r & R & M). rewrite R. destruct (envValue r o value) as [v| |] eqn:E; try discriminate. cbn [bind]. intros H. injection H as <-.
  right. exists (oId o), (oKeyIdx o), value, v, r. apply Bool.orb_false_iff in NR. destruct NR as [N1 N2].
  split; [exists key; split; [reflexivity|]; split; [exact S1|]; exists o; repeat split; assumption|]. split; [exact V|]. split; [exact G|]. split; [exact R|]. split; [|reflexivity].
  unfold envMeans. split; [intros ->; apply L; reflexivity|]. unfold envValue in E. destruct (isBool r) eqn:IB.
  - left. split; [apply isBool_spec; exact IB|apply boolValue_of; exact E].
  - right. apply isBool_not in IB. rewrite M in E. destruct (rMulti r) eqn:RM; injection E as <-.
    + left. split; [exact IB|]. split; [reflexivity|]. exists (splitOn 58 value). destruct (splitOn_join value) as [J1 J2]. split; [exact J1|]. split; [apply splitOn_ne|]. split; [exact J2|reflexivity].
    + right. split; [exact IB|]. split; reflexivity.
Qed.
Lemma env_all env : forall t t', loadEnv env t = Ok t' -> forall i k,
  match getOpt t i k with
  | Some v => getOpt t' i k = Some v
  | None => (getOpt t' i k = None /\ (valid i = true -> ~ inEnv env i k)) \/
            (exists value v r, valid i = true /\ nth_error rules i = Some r /\ firstEnv env i k value /\ envMeans r value v /\ getOpt t' i k = Some v)
  end.
Proof.
  induction env as [|var env IH]; intros t t' H i k; cbn [OptLoadModel.loadEnv] in H.
  { injection H as <-. destruct (getOpt t i k) as [v|]; [reflexivity|]. left. split; [reflexivity|]. intros _ (x & y & [] & _). }
  destruct (takeEnv var t) as [t1| |] eqn:E; try discriminate. cbn [bind] in H. specialize (IH t1 t' H i k).
  apply env_one in E. destruct E as [(-> & Q)|(i0 & k0 & value & v & r & E1 & E2 & E3 & E4 & E5 & ->)].
  - destruct (getOpt t i k) as [v|] eqn:G; [exact IH|]. 
    assert (NV : forall value, envNames var i k value -> valid i = false) by (intros value N; destruct (Q i k value N) as [K|K]; [exact K|congruence]).
    destruct IH as [(IH1 & IH2)|(value & v & r & IH1 & IH2 & IH3 & IH4 & IH5)].
    + left. split; [exact IH1|]. intros V (x & y & [<-|Hx] & Hy); [rewrite (NV y Hy) in V; discriminate|]. apply (IH2 V). exists x, y. split; assumption.
    + right. exists value, v, r. split; [exact IH1|]. split; [exact IH2|]. split; [|split; assumption]. destruct IH3 as (b & x & a & -> & B1 & B2). exists (var :: b), x, a.
      split; [reflexivity|]. split; [exact B1|]. intros (y & z & [<-|Hy] & Hz); [rewrite (NV z Hz) in IH1; discriminate|]. apply B2. exists y, z. split; assumption.
  - destruct (key_dec i i0 k k0) as [(_ & -> & ->)|(_ & N)].
    + rewrite E3. rewrite get_set_same in IH. right. exists value, v, r. split; [exact E2|]. split; [exact E4|]. split; [|split; assumption]. exists [], var, env. split; [reflexivity|]. split; [exact E1|].
      intros (x & y & [] & _).
    + rewrite get_set_other in IH by exact N. destruct (getOpt t i k) as [w|]; [exact IH|].
      assert (NV : forall value, ~ envNames var i k value) by (intros x Hx; destruct (envNames_fun _ _ _ _ _ _ _ E1 Hx) as (A1 & A2 & _); apply N; congruence).
      destruct IH as [(IH1 & IH2)|(value' & v' & r' & IH1 & IH2 & IH3 & IH4 & IH5)].
      * left. split; [exact IH1|]. intros V (x & y & [<-|Hx] & Hy); [exact (NV y Hy)|]. apply (IH2 V). exists x, y. split; assumption.
      * right. exists value', v', r'. split; [exact IH1|]. split; [exact IH2|]. split; [|split; assumption]. destruct IH3 as (b & x & a & -> & B1 & B2). exists (var :: b), x, a.
        split; [reflexivity|]. split; [exact B1|]. intros (y & z & [<-|Hy] & Hz); [exact (NV z Hz)|]. apply B2. exists y, z. split; assumption.
Qed.

(** * The file *)
Variable ini : list iniLine.
Notation takeKeyLine := (takeKeyLine rules deps optionValid cmd rl ini).
Notation takeKeys := (takeKeys rules deps optionValid cmd rl ini).
Notation takeSections := (takeSections rules deps optionValid cmd rl ini).

Lemma allowedb r s : (match rSection r with SecStanza => true | _ => false end && isGlobal s = true -> ~ allowedIn r s) /\
  (rSection r <> SecCommandLine -> match rSection r with SecStanza => true | _ => false end && isGlobal s = false -> allowedIn r s).
Proof.
  split.
  - intros H [A1 A2]. apply Bool.andb_true_iff in H. destruct H as [H1 H2]. destruct (rSection r); try discriminate. destruct (A2 eq_refl) as [B1 B2]. apply isGlobal_spec in H2. destruct H2 as [->|(x & ->)]; [congruence|exact (B2 x eq_refl)].
  - intros N H. split; [exact N|]. intros E. rewrite E in H. cbn [andb] in H. split.
    + intros ->. assert (isGlobal global = true) by (apply isGlobal_spec; left; reflexivity). congruence.
    + intros x ->. assert (isGlobal (global ++ 58 :: x) = true) by (apply isGlobal_spec; right; exists x; reflexivity). congruence.
Qed.

Lemma key_one section key found t found' t' : takeKeyLine section key found t = Ok (found', t') ->
  incl found found' /\
  (forall i k r, configName key i k -> nth_error rules i = Some r -> rSection r <> SecCommandLine -> ~ In (i, k) found /\ In (i, k) found') /\
  (t' = t /\ (forall i k r, configName key i k -> nth_error rules i = Some r -> valid i = true -> allowedIn r section -> getOpt t i k <> None) \/
   exists i k r v, configName key i k /\ nth_error rules i = Some r /\ valid i = true /\ allowedIn r section /\ getOpt t i k = None /\ fileMeans r (iniValues ini section key) v /\ t' = setOpt t i k v).
Proof.
  unfold OptLoadModel.takeKeyLine. destruct (parseOption rules deps false false key) as [[o|]| |] eqn:P; try discriminate; cbn [bind].
  2: { intros H. injection H as <- <-. split; [apply incl_refl|]. split; [intros i k r (o & H & _); congruence|]. left. split; [reflexivity|]. intros i k r (o & H & _); congruence. }
  assert (Q : forall i k, configName key i k -> oNegate o = false /\ oReset o = false /\ i = oId o /\ k = oKeyIdx o).
  { intros i k (o' & H & H1 & H2 & <- & <-). rewrite P in H. injection H as <-. repeat split; assumption. }
  destruct (oNegate o || oReset o) eqn:NR.
  { assert (Z0 : forall i k, ~ configName key i k) by (intros i k H; apply Q in H; destruct H as (H1 & H2 & _); rewrite H1, H2 in NR; discriminate).
    intros H. injection H as <- <-. split; [apply incl_refl|]. split; [intros i k r H; destruct (Z0 _ _ H)|]. left. split; [reflexivity|]. intros i k r H; destruct (Z0 _ _ H). }
  apply Bool.orb_false_iff in NR. destruct NR as [N1 N2].
  destruct (parse_rule _ _ _ _ P) as (r & R & M). rewrite R.
  assert (QR : forall i k r', configName key i k -> nth_error rules i = Some r' -> i = oId o /\ k = oKeyIdx o /\ r' = r).
  { intros i k r' H1 H2. apply Q in H1. destruct H1 as (_ & _ & -> & ->). rewrite R in H2. injection H2 as <-. repeat split. }
  assert (CL : rSection r = SecCommandLine -> Ok (found, t) = Ok (found', t') -> incl found found' /\
    (forall i k r, configName key i k -> nth_error rules i = Some r -> rSection r <> SecCommandLine -> ~ In (i, k) found /\ In (i, k) found') /\
    (t' = t /\ (forall i k r, configName key i k -> nth_error rules i = Some r -> valid i = true -> allowedIn r section -> getOpt t i k <> None) \/
     exists i k r v, configName key i k /\ nth_error rules i = Some r /\ valid i = true /\ allowedIn r section /\ getOpt t i k = None /\ fileMeans r (iniValues ini section key) v /\ t' = setOpt t i k v)).
  { intros S H. injection H as <- <-. split; [apply incl_refl|]. split; [intros i k r' H1 H2 H3; destruct (QR i k r' H1 H2) as (_ & _ & ->); congruence|].
    left. split; [reflexivity|]. intros i k r' H1 H2 _ [H3 _]. destruct (QR i k r' H1 H2) as (_ & _ & ->). congruence. }
  assert (GO : rSection r <> SecCommandLine ->
    (if existsb (fun e => (fst e =? oId o)%nat && (snd e =? oKeyIdx o)) found then Err EOther
     else let found := (oId o, oKeyIdx o) :: found in
       if negb (optionValid cmd rl (oId o)) then Ok (found, t)
       else if match rSection r with SecStanza => true | _ => false end && isGlobal section then Ok (found, t)
       else match getOpt t (oId o) (oKeyIdx o) with
            | Some _ => Ok (found, t)
            | None => let* v := fileValue r o (iniValues ini section key) in Ok (found, setOpt t (oId o) (oKeyIdx o) v)
            end) = Ok (found', t') -> incl found found' /\
    (forall i k r, configName key i k -> nth_error rules i = Some r -> rSection r <> SecCommandLine -> ~ In (i, k) found /\ In (i, k) found') /\
    (t' = t /\ (forall i k r, configName key i k -> nth_error rules i = Some r -> valid i = true -> allowedIn r section -> getOpt t i k <> None) \/
     exists i k r v, configName key i k /\ nth_error rules i = Some r /\ valid i = true /\ allowedIn r section /\ getOpt t i k = None /\ fileMeans r (iniValues ini section key) v /\ t' = setOpt t i k v)).
  2: { destruct (rSection r) eqn:S; [apply GO; congruence|apply GO; congruence|apply CL; reflexivity]. }
  intros S H. destruct (existsb _ found) eqn:EX; [discriminate|]. cbv zeta in H.
  assert (NI : ~ In (oId o, oKeyIdx o) found).
  { intros K. assert (B : existsb (fun e => (fst e =? oId o)%nat && (snd e =? oKeyIdx o)) found = true) by (apply existsb_exists; exists (oId o, oKeyIdx o); cbn; rewrite Nat.eqb_refl, Z.eqb_refl; split; [exact K|reflexivity]). congruence. }
  assert (F : found' = (oId o, oKeyIdx o) :: found).
  { destruct (valid (oId o)); cbn [negb] in H; [|injection H as <- _; reflexivity]. destruct (match rSection r with SecStanza => true | _ => false end && isGlobal section); [injection H as <- _; reflexivity|].
    destruct (getOpt t (oId o) (oKeyIdx o)); [injection H as <- _; reflexivity|]. destruct (fileValue r o (iniValues ini section key)); try discriminate. injection H as <- _. reflexivity. }
  split; [rewrite F; intros x Hx; right; exact Hx|]. split.
  { intros i k r' H1 H2 H3. destruct (QR i k r' H1 H2) as (-> & -> & ->). split; [exact NI|]. rewrite F. left. reflexivity. }
  destruct (valid (oId o)) eqn:V; cbn [negb] in H.
  2: { injection H as _ <-. left. split; [reflexivity|]. intros i k r' H1 H2 H3 _. destruct (QR i k r' H1 H2) as (-> & _ & _). congruence. }
  destruct (match rSection r with SecStanza => true | _ => false end && isGlobal section) eqn:SG.
  { injection H as _ <-. left. split; [reflexivity|]. intros i k r' H1 H2 _ H4. destruct (QR i k r' H1 H2) as (_ & _ & ->). exfalso. exact (proj1 (allowedb r section) SG H4). }
  destruct (getOpt t (oId o) (oKeyIdx o)) as [w|] eqn:G.
  { injection H as _ <-. left. split; [reflexivity|]. intros i k r' H1 H2 _ _. destruct (QR i k r' H1 H2) as (-> & -> & _). congruence. }
  destruct (fileValue r o (iniValues ini section key)) as [v| |] eqn:E; try discriminate. injection H as _ <-. right. exists (oId o), (oKeyIdx o), r, v.
  split; [exists o; repeat split; assumption|]. split; [exact R|]. split; [exact V|]. split; [apply allowedb; assumption|]. split; [exact G|]. split; [|reflexivity].
  unfold fileValue in E. unfold fileMeans. destruct (iniValues ini section key) as [|value [|value2 l]]; [discriminate| |].
  - destruct (Nat.eqb_spec (length value) 0) as [L|L]; [discriminate|]. split; [intros ->; apply L; reflexivity|]. destruct (isBool r) eqn:IB.
    + left. split; [apply isBool_spec; exact IB|apply boolValue_of; exact E].
    + right. split; [apply isBool_not; exact IB|]. injection E as <-. reflexivity.
  - rewrite M in E. destruct (rMulti r); [|discriminate]. injection E as <-. split; reflexivity.
Qed.

Lemma keys_unique section keys : forall found t t', takeKeys section keys found t = Ok t' -> forall i k r, nth_error rules i = Some r -> rSection r <> SecCommandLine -> In (i, k) found ->
  forall key, In key keys -> ~ configName key i k.
Proof.
  induction keys as [|k0 keys IH]; intros found t t' H i k r R S F key HK C; [destruct HK|]. cbn [OptLoadModel.takeKeys] in H.
  destruct (takeKeyLine section k0 found t) as [[f1 t1]| |] eqn:E; try discriminate. cbn [bind fst snd] in H. apply key_one in E. destruct E as (E1 & E2 & _).
  destruct HK as [->|HK].
  - destruct (E2 i k r C R S) as [A _]. exact (A F).
  - exact (IH f1 t1 t' H i k r R S (E1 _ F) key HK C).
Qed.
Lemma keys_all section keys : forall found t t', takeKeys section keys found t = Ok t' -> forall i k,
  match getOpt t i k with
  | Some v => getOpt t' i k = Some v
  | None => (getOpt t' i k = None /\ (valid i = true -> forall r key, nth_error rules i = Some r -> In key keys -> configName key i k -> ~ allowedIn r section)) \/
            (exists key v r, valid i = true /\ nth_error rules i = Some r /\ In key keys /\ configName key i k /\ allowedIn r section /\ (forall key', In key' keys -> configName key' i k -> key' = key) /\
               fileMeans r (iniValues ini section key) v /\ getOpt t' i k = Some v)
  end.
Proof.
  induction keys as [|k0 keys IH]; intros found t t' H i k; cbn [OptLoadModel.takeKeys] in H.
  { injection H as <-. destruct (getOpt t i k) as [v|]; [reflexivity|]. left. split; [reflexivity|]. intros _ r key _ []. }
  destruct (takeKeyLine section k0 found t) as [[f1 t1]| |] eqn:E; try discriminate. cbn [bind fst snd] in H. specialize (IH f1 t1 t' H i k). apply key_one in E. destruct E as (E1 & E2 & E3).
  assert (UQ : forall r, configName k0 i k -> nth_error rules i = Some r -> rSection r <> SecCommandLine -> forall key, In key keys -> ~ configName key i k).
  { intros r C R S. destruct (E2 i k r C R S) as [_ A]. exact (keys_unique section keys f1 t1 t' H i k r R S A). }
  destruct E3 as [(-> & Q)|(i0 & k1 & r & v & C & R & V & A & G & FM & ->)].
  - destruct (getOpt t i k) as [w|] eqn:G; [exact IH|].
    assert (NA : forall r, configName k0 i k -> nth_error rules i = Some r -> valid i = true -> ~ allowedIn r section) by (intros r C R V A; apply (Q i k r C R V A); exact G).
    destruct IH as [(IH1 & IH2)|(key & v & r & B1 & B2 & B3 & B4 & B5 & B6 & B7 & B8)].
    + left. split; [exact IH1|]. intros V r key R [<-|HK] C; [exact (NA r C R V)|exact (IH2 V r key R HK C)].
    + right. exists key, v, r. split; [exact B1|]. split; [exact B2|]. split; [right; exact B3|]. split; [exact B4|]. split; [exact B5|]. split; [|split; assumption].
      intros key' [<-|HK] C; [|exact (B6 key' HK C)]. exfalso. exact (NA r C B2 B1 B5).
  - destruct (key_dec i i0 k k1) as [(_ & -> & ->)|(_ & N)].
    + rewrite G. rewrite get_set_same in IH. right. exists k0, v, r. split; [exact V|]. split; [exact R|]. split; [left; reflexivity|]. split; [exact C|]. split; [exact A|]. split; [|split; assumption].
      intros key' [<-|HK] C'; [reflexivity|]. exfalso. exact (UQ r C R (proj1 A) key' HK C').
    + rewrite get_set_other in IH by exact N. destruct (getOpt t i k) as [w|]; [exact IH|].
      assert (NC : ~ configName k0 i k) by (intros Q; destruct (configName_fun _ _ _ _ _ C Q) as [A1 A2]; apply N; congruence).
      destruct IH as [(IH1 & IH2)|(key & v' & r' & B1 & B2 & B3 & B4 & B5 & B6 & B7 & B8)].
      * left. split; [exact IH1|]. intros V' r' key R' [<-|HK] C'; [contradiction|exact (IH2 V' r' key R' HK C')].
      * right. exists key, v', r'. split; [exact B1|]. split; [exact B2|]. split; [right; exact B3|]. split; [exact B4|]. split; [exact B5|]. split; [|split; assumption].
        intros key' [<-|HK] C'; [contradiction|exact (B6 key' HK C')].
Qed.

Lemma sections_all sections : forall t t', takeSections sections t = Ok t' -> forall i k,
  match getOpt t i k with
  | Some v => getOpt t' i k = Some v
  | None => (getOpt t' i k = None /\ (valid i = true -> forall r s, nth_error rules i = Some r -> In s sections -> inSection rules deps ini s i k -> ~ allowedIn r s)) \/
            (exists section key values v r, valid i = true /\ nth_error rules i = Some r /\ firstSection rules deps ini sections r i k section key /\ valuesOf ini section key values /\
               fileMeans r values v /\ getOpt t' i k = Some v)
  end.
Proof.
  induction sections as [|s sections IH]; intros t t' H i k; cbn [OptLoadModel.takeSections] in H.
  { injection H as <-. destruct (getOpt t i k) as [v|]; [reflexivity|]. left. split; [reflexivity|]. intros _ r s _ []. }
  destruct (takeKeys s (iniKeys ini s) [] t) as [t1| |] eqn:E; try discriminate. cbn [bind] in H. specialize (IH t1 t' H i k). pose proof (keys_all s _ _ _ _ E i k) as K.
  destruct (getOpt t i k) as [v|]; [rewrite K in IH; exact IH|]. destruct K as [(K1 & K2)|(key & v & r & B1 & B2 & B3 & B4 & B5 & B6 & B7 & B8)].
  - rewrite K1 in IH. assert (NS : valid i = true -> forall r, nth_error rules i = Some r -> inSection rules deps ini s i k -> ~ allowedIn r s).
    { intros V r R (key & C1 & C2). apply (K2 V r key R); [apply iniKeys_in; exact C1|exact C2]. }
    destruct IH as [(IH1 & IH2)|(section & key & values & v & r & B1 & B2 & B3 & B4 & B5 & B6)].
    + left. split; [exact IH1|]. intros V r s' R [<-|HS] C; [exact (NS V r R C)|exact (IH2 V r s' R HS C)].
    + right. exists section, key, values, v, r. split; [exact B1|]. split; [exact B2|]. split; [|repeat split; assumption]. destruct B3 as (b & a & -> & D1 & D2 & D3 & D4 & D5).
      exists (s :: b), a. split; [reflexivity|]. split; [exact D1|]. split; [exact D2|]. split; [exact D3|]. split; [exact D4|]. intros s' [<-|HS] C; [exact (NS B1 r B2 C)|exact (D5 s' HS C)].
  - rewrite B8 in IH. right. exists s, key, (iniValues ini s key), v, r. split; [exact B1|]. split; [exact B2|]. split; [|split; [apply iniValues_of|split; assumption]].
    exists [], sections. split; [reflexivity|]. split; [apply iniKeys_in; exact B3|]. split; [exact B4|]. split; [exact B5|]. split; [|intros s' []].
    intros key' C1 C2. apply B6; [apply iniKeys_in; exact C1|exact C2].
Qed.
End Config.
