From Verif Require Import Base Str ManifestPackModel ManifestModel LinkCheckModel CleanModel CleanSpec CleanProof.
Open Scope Z_scope.

(** Only what is at or below [p] is changed, nothing is added *)
Definition within (p : path) (f f' : fs) : Prop :=
  sub f' f /\ (NoDup (map fst f) -> NoDup (map fst f')) /\ (forall q, below p q = false -> get f' q = get f q).
Lemma within_refl p f : within p f f.
Proof. repeat split; auto using sub_refl. Qed.
Lemma within_trans p a b c : within p a b -> within p b c -> within p a c.
Proof.
  intros (A1 & A2 & A3) (B1 & B2 & B3). split; [|split].
  - exact (sub_trans _ _ _ B1 A1).
  - auto.
  - intros q H. now rewrite B3, A3.
Qed.
Lemma below_self p : below p p = true.
Proof. apply below_iff. exists []. now rewrite app_nil_r. Qed.
Lemma within_del p bad f : (forall q, bad q = true -> below p q = true) -> within p f (del f bad).
Proof.
  intros H. split; [apply sub_del|]. split; [apply nd_del|]. intros q Hq. rewrite get_del. destruct (bad q) eqn:E; [|reflexivity].
  rewrite (H q E) in Hq. discriminate.
Qed.
Lemma within_attr p g f : (forall e, eKind (g e) = eKind e) -> within p f (attr p g f).
Proof.
  intros H. split; [now apply sub_attr|]. split; [apply nd_attr|]. intros q Hq. rewrite get_attr.
  destruct (pathEqb_spec p q) as [->|]; [|reflexivity]. rewrite below_self in Hq. discriminate.
Qed.
(** What is somewhere stays there *)
Definition stays (f f' : fs) (q : path) : Prop := get f q <> None -> get f' q <> None.

Lemma app_cons (r : path) n rest : r ++ n :: rest = (r ++ [n]) ++ rest.
Proof. now rewrite <- app_assoc. Qed.
Lemma get_under_leaf f p n s e : tree f -> get f p = Some e -> eKind e <> KPath -> get f (p ++ n :: s) = None.
Proof.
  intros T G K. destruct (get f (p ++ n :: s)) as [x|] eqn:E; [|reflexivity]. elim K. exact (T _ _ _ _ _ E G).
Qed.
Lemma app_ne (p : path) n s : p ++ n :: s <> p.
Proof. intros E. apply (f_equal (@length str)) in E. rewrite app_length in E. cbn in E. lia. Qed.
(** Everything at or below [p] has all its parents from [p] *)
Definition closedB (p : path) (f : fs) : Prop := forall q a b, get f (p ++ q ++ a :: b) <> None -> get f (p ++ q ++ [a]) <> None.

Section Sys.
Variables (fail : nat -> bool) (part : nat -> path -> bool) (ev : env) (ru rg : option str) (m : cman) (ig : list str).
Let want := want ev ru rg m ig.
Let cleanOwnership := cleanOwnership fail ev ru rg.
Let cleanMode := cleanMode fail.
Let cleanOne := cleanOne fail part ev ru rg m ig true.
Let cleanDir n := cleanDir fail part ev ru rg n m ig true.
Definition nofail : Prop := forall n, fail n = false.

Lemma attr_steps p user group e mode s s' o : get (cFs s) p = Some e ->
  mbind (cleanOwnership p user group (eUser e) (eGroup e)) (fun _ => cleanMode p mode e) s = (s', o) ->
  within p (cFs s) (cFs s') /\ (forall q, stays (cFs s) (cFs s') q) /\ (nofail -> o = Ok tt) /\
  (forall q, q <> p -> get (cFs s') q = get (cFs s) q) /\
  (o = Ok tt -> get (cFs s') p = Some (owned ev ru rg e user group mode)).
Proof.
  intros G. unfold mbind, cleanOwnership, CleanModel.cleanOwnership, cleanMode, CleanModel.cleanMode, chownAt, chmodAt, call, ret, nofail.
  set (F1 := attr p (fun x => mkEntry (eKind x) (expectedUser ev ru user) (expectedGroup ev rg group) (eMode x))).
  set (F2 := attr p (fun x => mkEntry (eKind x) (eUser x) (eGroup x) mode)).
  assert (W1 : forall f, within p f (F1 f)) by (intros; now apply within_attr).
  assert (W2 : forall f, within p f (F2 f)) by (intros; now apply within_attr).
  assert (O1 : forall f q, q <> p -> get (F1 f) q = get f q).
  { intros f q Hq. unfold F1. rewrite get_attr. destruct (pathEqb_spec p q); [congruence|reflexivity]. }
  assert (O2 : forall f q, q <> p -> get (F2 f) q = get f q).
  { intros f q Hq. unfold F2. rewrite get_attr. destruct (pathEqb_spec p q); [congruence|reflexivity]. }
  assert (G1 : forall f x, get f p = Some x -> get (F1 f) p = Some (mkEntry (eKind x) (expectedUser ev ru user) (expectedGroup ev rg group) (eMode x))).
  { intros f x Hx. unfold F1. rewrite get_attr, pathEqb_refl, Hx. reflexivity. }
  assert (G2 : forall f x, get f p = Some x -> get (F2 f) p = Some (mkEntry (eKind x) (eUser x) (eGroup x) mode)).
  { intros f x Hx. unfold F2. rewrite get_attr, pathEqb_refl, Hx. reflexivity. }
  assert (S1 : forall f q, stays f (F1 f) q).
  { intros f q. unfold stays, F1. rewrite get_attr. destruct (pathEqb_spec p q) as [->|]; [|auto]. destruct (get f q); cbn; congruence. }
  assert (S2 : forall f q, stays f (F2 f) q).
  { intros f q. unfold stays, F2. rewrite get_attr. destruct (pathEqb_spec p q) as [->|]; [|auto]. destruct (get f q); cbn; congruence. }
  destruct (negb (eUser e =? _) || negb (eGroup e =? _)) eqn:D1.
  - destruct (fail (cN s)) eqn:X1.
    { intros [= <- <-]. cbn [cFs]. split; [apply within_refl|]. split; [intros q H; exact H|]. split; [intros H; now rewrite H in X1|].
      split; [reflexivity|discriminate]. }
    cbn [cFs cN]. destruct (negb (mode =? eMode e)) eqn:D2.
    + cbn [cFs cN]. destruct (fail (S (cN s))) eqn:X2; intros [= <- <-]; cbn [cFs].
      * split; [apply W1|]. split; [apply S1|]. split; [intros H; now rewrite H in X2|]. split; [apply O1|discriminate].
      * split; [eapply within_trans; [apply W1|apply W2]|]. split; [intros q H; apply S2, S1, H|]. split; [reflexivity|]. split.
        -- intros q Hq. now rewrite O2, O1.
        -- intros _. now rewrite (G2 _ _ (G1 _ _ G)).
    + intros [= <- <-]. cbn [cFs]. split; [apply W1|]. split; [apply S1|]. split; [reflexivity|]. split; [apply O1|].
      intros _. rewrite (G1 _ _ G). apply negb_false_iff, Z.eqb_eq in D2. subst mode. reflexivity.
  - apply orb_false_iff in D1 as [D1 D1']. apply negb_false_iff, Z.eqb_eq in D1, D1'. destruct (negb (mode =? eMode e)) eqn:D2.
    + destruct (fail (cN s)) eqn:X2; intros [= <- <-]; cbn [cFs].
      * split; [apply within_refl|]. split; [intros q H; exact H|]. split; [intros H; now rewrite H in X2|]. split; [reflexivity|discriminate].
      * split; [apply W2|]. split; [apply S2|]. split; [reflexivity|]. split; [apply O2|].
        intros _. rewrite (G2 _ _ G). unfold owned. now rewrite <- D1, <- D1'.
    + intros [= <- <-]. split; [apply within_refl|]. split; [intros q H; exact H|]. split; [reflexivity|]. split; [reflexivity|].
      intros _. rewrite G. apply negb_false_iff, Z.eqb_eq in D2. subst mode. unfold owned. rewrite <- D1, <- D1'. now destruct e.
Qed.
Lemma want_get f name r base rel : want f name r base rel <> None -> get f (r ++ rel) <> None.
Proof.
  revert name r base. induction rel as [|n rest IH]; intros name r base; [intros H; now elim H|]. unfold want. cbn [CleanProof.want].
  destruct (get f (r ++ [n])) as [e|] eqn:G; [|intros H; now elim H]. destruct rest as [|k rest].
  - intros _. congruence.
  - destruct (eKind e); cbn [isNil negb]; try (intros H; now elim H). destruct (findPath _ _); [|intros H; now elim H].
    destruct (findLink _ _); [intros H; now elim H|]. intros H. apply IH in H. now rewrite <- app_assoc in H.
Qed.
Lemma own_steps p user group e s s' o : get (cFs s) p = Some e ->
  cleanOwnership p user group (eUser e) (eGroup e) s = (s', o) ->
  within p (cFs s) (cFs s') /\ (forall q, stays (cFs s) (cFs s') q) /\ (nofail -> o = Ok tt) /\
  (forall q, q <> p -> get (cFs s') q = get (cFs s) q) /\
  (o = Ok tt -> get (cFs s') p = Some (owned ev ru rg e user group (eMode e))).
Proof.
  intros G H. apply (attr_steps p user group e (eMode e) s s' o G). unfold mbind. rewrite H.
  unfold cleanMode, CleanModel.cleanMode. rewrite Z.eqb_refl. cbn. destruct o as [[]| |]; reflexivity.
Qed.

(** What a step that cleans at [p], which is [rel] in [r], must do *)
Definition goal1 (name : str) (r : path) (base : bool) (n : str) (f f' : fs) (o : res unit) : Prop :=
  within (r ++ [n]) f f' /\
  (forall rest, want f name r base (n :: rest) <> None -> get f' (r ++ n :: rest) <> None) /\
  (o = Ok tt -> closedB (r ++ [n]) f -> forall rest, get f' (r ++ n :: rest) = want f name r base (n :: rest)).
Definition goalDir (name : str) (r : path) (base : bool) (f f' : fs) (o : res unit) : Prop :=
  within r f f' /\ get f' r = get f r /\
  (forall rel, want f name r base rel <> None -> get f' (r ++ rel) <> None) /\
  (o = Ok tt -> closedB r f -> forall rel, rel <> [] -> get f' (r ++ rel) = want f name r base rel).

Lemma unlink_goal s s' o name r base n e : tree (cFs s) -> get (cFs s) (r ++ [n]) = Some e -> eKind e <> KPath ->
  (forall rest, want (cFs s) name r base (n :: rest) = None) ->
  unlinkAt fail (r ++ [n]) s = (s', o) -> goal1 name r base n (cFs s) (cFs s') o /\ (nofail -> o = Ok tt).
Proof.
  intros T G K W. unfold unlinkAt, call. destruct (fail (cN s)) eqn:X; intros [= <- <-]; cbn [cFs].
  - split; [|intros H; now rewrite H in X]. split; [apply within_refl|]. split; [|discriminate]. intros rest. rewrite W. congruence.
  - split; [|reflexivity]. split; [apply within_del; intros q Hq; apply pathEqb_eq in Hq as <-; apply below_self|]. split.
    + intros rest. rewrite W. congruence.
    + intros _ _ rest. rewrite W, get_del. destruct (pathEqb (r ++ [n]) (r ++ n :: rest)) eqn:E; [reflexivity|].
      destruct rest as [|k rest]; [now rewrite pathEqb_refl in E|]. rewrite app_cons. eapply get_under_leaf; eauto.
Qed.
Lemma leaf_goal s s' o name r base n e e' : tree (cFs s) -> get (cFs s) (r ++ [n]) = Some e -> eKind e <> KPath ->
  within (r ++ [n]) (cFs s) (cFs s') -> (forall q, stays (cFs s) (cFs s') q) -> (forall q, q <> r ++ [n] -> get (cFs s') q = get (cFs s) q) ->
  (o = Ok tt -> get (cFs s') (r ++ [n]) = Some e') ->
  want (cFs s) name r base [n] = Some e' -> (forall k rest, want (cFs s) name r base (n :: k :: rest) = None) ->
  goal1 name r base n (cFs s) (cFs s') o.
Proof.
  intros T G K W St O Ok1 W1 W2. split; [exact W|]. split.
  - intros [|k rest]; [|rewrite W2; congruence]. intros _. apply St. congruence.
  - intros E _ [|k rest]; [rewrite W1; now apply Ok1|]. rewrite W2, O by (rewrite app_cons; apply app_ne). rewrite app_cons. eapply get_under_leaf; eauto.
Qed.

Lemma cleanOne_goal rec name r base n e s s' o : tree (cFs s) -> NoDup (map fst (cFs s)) -> get (cFs s) (r ++ [n]) = Some e ->
  (forall s s' o, tree (cFs s) -> NoDup (map fst (cFs s)) -> rec (slashed name n) (r ++ [n]) s = (s', o) ->
     goalDir (slashed name n) (r ++ [n]) false (cFs s) (cFs s') o) ->
  cleanOne rec name r base (n, e) s = (s', o) -> goal1 name r base n (cFs s) (cFs s') o.
Proof.
  intros T N G IH. unfold cleanOne, CleanModel.cleanOne. cbn [negb].
  assert (D : forall rest, want (cFs s) name r base (n :: rest) = want (cFs s) name r base (n :: rest)) by reflexivity.
  unfold want in D at 2. cbn [CleanProof.want] in D. rewrite G in D.
  destruct (eKind e) as [c| |d|] eqn:K; unfold isFile; rewrite K.
  - (* file *)
    destruct (base && true && strLstExists ig n) eqn:B.
    { intros [= <- <-]. rewrite andb_true_r in B. rewrite B in D. apply (leaf_goal s s _ name r base n e e);
        [exact T|exact G|congruence|apply within_refl|intros q H; exact H|reflexivity|intros _; exact G|apply D|intros; apply D]. }
    rewrite andb_true_r in B. rewrite B in D.
    destruct (findPath (cmFiles m) (slashed name n)) as [p|] eqn:F1; [destruct (findLink (cmLinks m) (slashed name n)) as [k|] eqn:F2|].
    + intros H. refine (proj1 (unlink_goal _ _ _ name r base n e T G _ _ H)); [congruence|]. intros [|? ?]; rewrite D; cbn [isNil negb]; try rewrite F3; reflexivity.
    + intros H. apply attr_steps in H as (A1 & A2 & A3 & A4 & A5); [|exact G]. eapply (leaf_goal s s' o name r base n e);
        [exact T|exact G|congruence|exact A1|exact A2|exact A4|exact A5|apply D|intros; apply D].
    + intros H. refine (proj1 (unlink_goal _ _ _ name r base n e T G _ _ H)); [congruence|]. intros [|? ?]; rewrite D; cbn [isNil negb]; try rewrite F3; reflexivity.
  - (* directory *)
    rewrite andb_false_r. cbn [andb].
    assert (RM : forall s' o, (forall rest, want (cFs s) name r base (n :: rest) = None) -> pathRemoveAt fail part (r ++ [n]) s = (s', o) ->
        goal1 name r base n (cFs s) (cFs s') o).
    { intros s1 o1 W. unfold pathRemoveAt, call. destruct (fail (cN s)) eqn:X; intros [= <- <-]; cbn [cFs].
      - split; [apply within_del; intros q H; now apply andb_true_iff in H|]. split; [intros rest; rewrite W; congruence|discriminate].
      - split; [apply within_del; auto|]. split; [intros rest; rewrite W; congruence|]. intros _ _ rest. rewrite W, get_del, (app_cons r n rest).
        assert (below (r ++ [n]) ((r ++ [n]) ++ rest) = true) as -> by (apply below_iff; eauto). reflexivity. }
    destruct (findPath (cmPaths m) (slashed name n)) as [p|] eqn:F1; [destruct (findLink (cmLinks m) (slashed name n)) as [k|] eqn:F2|].
    + intros H. apply RM in H; [exact H|]. intros rest; apply D.
    + intros H.
      assert (HH : exists s1 o1, mbind (cleanOwnership (r ++ [n]) (mpUser p) (mpGroup p) (eUser e) (eGroup e)) (fun _ => cleanMode (r ++ [n]) (mpMode p) e) s = (s1, o1) /\
         match o1 with Ok _ => rec (slashed name n) (r ++ [n]) s1 = (s', o) | Err x => s' = s1 /\ o = Err x | UB => s' = s1 /\ o = UB end).
      { unfold mbind, cleanOwnership, cleanMode in *. destruct (CleanModel.cleanOwnership _ _ _ _ _ _ _ _ _ s) as [s1 [[]|x|]] eqn:E1.
        - destruct (CleanModel.cleanMode _ _ _ _ s1) as [s2 [[]|x|]] eqn:E2.
          + exists s2, (Ok tt). auto.
          + exists s2, (Err x). injection H as <- <-. auto.
          + exists s2, UB. injection H as <- <-. auto.
        - exists s1, (Err x). injection H as <- <-. auto.
        - exists s1, UB. injection H as <- <-. auto. }
      destruct HH as (s1 & o1 & H1 & H2). apply attr_steps in H1 as (A1 & A2 & A3 & A4 & A5); [|exact G].
      assert (DW : forall k rest, want (cFs s) name r base (n :: k :: rest) = want (cFs s1) (slashed name n) (r ++ [n]) false (k :: rest)).
      { intros k rest. rewrite D. cbn [isNil]. apply want_ext. intros q (n' & t & [= <- <-] & Hq). symmetry. apply A4. intros ->.
        apply below_iff in Hq as [t Ht]. symmetry in Ht. rewrite <- app_assoc in Ht. now apply app_ne in Ht. }
      assert (NO : o1 <> Ok tt -> (s' = s1 /\ o <> Ok tt) -> goal1 name r base n (cFs s) (cFs s') o).
      { intros _ [-> Ho]. split; [exact A1|]. split; [|congruence]. intros [|k rest]; [intros _; apply A2; congruence|].
        intros W. apply A2. now apply want_get in W. }
      destruct o1 as [[]|x|].
      * specialize (A5 eq_refl). apply IH in H2 as (B1 & B2 & B3 & B4).
        -- split; [eapply within_trans; eassumption|]. split.
           ++ intros [|k rest]; [intros _; rewrite B2; congruence|]. rewrite DW. intros W. rewrite app_cons. now apply B3.
           ++ intros E C [|k rest].
              ** rewrite B2, A5, D. reflexivity.
              ** rewrite DW, app_cons. apply B4; [exact E| |discriminate]. intros q a b. rewrite !A4.
                 { apply C. }
                 { destruct q; cbn; apply app_ne. }
                 { destruct q; cbn; apply app_ne. }
        -- destruct A1 as (A1 & _). eapply tree_sub; eassumption.
        -- destruct A1 as (_ & A1 & _). auto.
      * apply NO; [discriminate|]. destruct H2 as [-> ->]. split; [reflexivity|discriminate].
      * apply NO; [discriminate|]. destruct H2 as [-> ->]. split; [reflexivity|discriminate].
    + intros H. apply RM in H; [exact H|]. intros rest; apply D.
  - (* link *)
    rewrite andb_false_r. cbn [andb]. destruct (findLink (cmLinks m) (slashed name n)) as [k|] eqn:F2.
    + destruct (strEqb (mlDestination k) d) eqn:F3; cbn [negb].
      * intros H. apply own_steps in H as (A1 & A2 & A3 & A4 & A5); [|exact G]. eapply (leaf_goal s s' o name r base n e);
          [exact T|exact G|congruence|exact A1|exact A2|exact A4|exact A5| |intros; apply D]. rewrite D. reflexivity.
      * intros H. refine (proj1 (unlink_goal _ _ _ name r base n e T G _ _ H)); [congruence|]. intros [|? ?]; rewrite D; cbn [isNil negb]; try rewrite F3; reflexivity.
    + intros H. refine (proj1 (unlink_goal _ _ _ name r base n e T G _ _ H)); [congruence|]. intros [|? ?]; rewrite D; cbn [isNil negb]; try rewrite F3; reflexivity.
  - rewrite andb_false_r. cbn [andb]. intros H. refine (proj1 (unlink_goal _ _ _ name r base n e T G _ _ H)); [congruence|exact D].
Qed.

(** The loop over what was listed at the start *)
Lemma loop_goal rec name r base f l : tree f -> NoDup (map fst f) -> NoDup (map fst l) -> (forall n e, In (n, e) l -> get f (r ++ [n]) = Some e) ->
  (forall n s s' o, tree (cFs s) -> NoDup (map fst (cFs s)) -> rec (slashed name n) (r ++ [n]) s = (s', o) ->
     goalDir (slashed name n) (r ++ [n]) false (cFs s) (cFs s') o) ->
  forall s s' o, sub (cFs s) f -> NoDup (map fst (cFs s)) ->
  (forall n q, In n (map fst l) -> below (r ++ [n]) q = true -> get (cFs s) q = get f q) ->
  forM l (cleanOne rec name r base) s = (s', o) ->
  sub (cFs s') (cFs s) /\ NoDup (map fst (cFs s')) /\
  (forall q, (forall n, In n (map fst l) -> below (r ++ [n]) q = false) -> get (cFs s') q = get (cFs s) q) /\
  (forall n rest, In n (map fst l) -> want f name r base (n :: rest) <> None -> get (cFs s') (r ++ n :: rest) <> None) /\
  (o = Ok tt -> closedB r f -> forall n rest, In n (map fst l) -> get (cFs s') (r ++ n :: rest) = want f name r base (n :: rest)).
Proof.
  intros T N. induction l as [|[n e] l IH]; intros NL L R s s' o Sub Ns Ag.
  - cbn. intros [= <- <-]. repeat split; auto using sub_refl; intros; contradiction.
  - cbn [forM]. unfold mbind at 1. destruct (cleanOne rec name r base (n, e) s) as [s1 o1] eqn:E1. cbn in NL. inversion NL as [|? ? NL1 NL2]; subst.
    assert (G : get (cFs s) (r ++ [n]) = Some e).
    { rewrite (Ag n); [apply L; now left|now left|apply below_self]. }
    assert (WX : forall rest, want (cFs s) name r base (n :: rest) = want f name r base (n :: rest)).
    { intros rest. apply want_ext. intros q (n' & t & [= <- <-] & Hq). apply (Ag n); [now left|exact Hq]. }
    apply cleanOne_goal in E1; auto; [|eapply tree_sub; eassumption]. destruct E1 as ((A1 & A2 & A3) & A4 & A5).
    assert (DIS : forall k q, In k (map fst l) -> below (r ++ [k]) q = true -> below (r ++ [n]) q = false).
    { intros k q Hk Hq. apply below_false. intros t ->. apply below_iff in Hq as [t' Ht]. rewrite <- !app_assoc in Ht. apply app_inv_head in Ht.
      cbn in Ht. injection Ht as -> _. contradiction. }
    assert (HH : match o1 with
                 | Ok _ => forM l (cleanOne rec name r base) s1 = (s', o)
                 | _ => s' = s1 /\ o <> Ok tt end -> sub (cFs s') (cFs s1) /\ NoDup (map fst (cFs s')) /\
  (forall q, (forall n, In n (map fst l) -> below (r ++ [n]) q = false) -> get (cFs s') q = get (cFs s1) q) /\
  (forall n rest, In n (map fst l) -> want f name r base (n :: rest) <> None -> get (cFs s') (r ++ n :: rest) <> None) /\
  (o = Ok tt -> o1 = Ok tt /\ (closedB r f -> forall n rest, In n (map fst l) -> get (cFs s') (r ++ n :: rest) = want f name r base (n :: rest)))).
    { intros H.
      assert (STOP : s' = s1 /\ o <> Ok tt -> sub (cFs s') (cFs s1) /\ NoDup (map fst (cFs s')) /\
  (forall q, (forall n, In n (map fst l) -> below (r ++ [n]) q = false) -> get (cFs s') q = get (cFs s1) q) /\
  (forall n rest, In n (map fst l) -> want f name r base (n :: rest) <> None -> get (cFs s') (r ++ n :: rest) <> None) /\
  (o = Ok tt -> o1 = Ok tt /\ (closedB r f -> forall n rest, In n (map fst l) -> get (cFs s') (r ++ n :: rest) = want f name r base (n :: rest)))).
      { intros [-> Ho]. split; [apply sub_refl|]. split; [auto|]. split; [reflexivity|]. split; [|congruence].
        intros k rest Hk W. apply want_get in W.
        assert (below (r ++ [k]) (r ++ k :: rest) = true) as B by (apply below_iff; exists rest; apply app_cons).
        rewrite A3 by (eapply DIS; eassumption). rewrite (Ag k); [exact W|now right|exact B]. }
      destruct o1 as [[]|x|]; [|now apply STOP|now apply STOP].
      apply IH in H; auto.
      - destruct H as (H1 & H2 & H3 & H4 & H5). auto 10.
      - intros k x Hx. apply L. now right.
      - eapply sub_trans; eassumption.
      - intros k q Hk Hq. rewrite A3 by (eapply DIS; eassumption). apply (Ag k); [now right|exact Hq]. }
    intros H. destruct HH as (B1 & B2 & B3 & B4 & B5).
    { destruct o1 as [[]|x|]; [exact H|injection H as <- <-; split; [reflexivity|discriminate]|injection H as <- <-; split; [reflexivity|discriminate]]. }
    assert (KEEP : forall rest, get (cFs s') (r ++ n :: rest) = get (cFs s1) (r ++ n :: rest)).
    { intros rest. apply B3. intros k Hk. destruct (below (r ++ [k]) (r ++ n :: rest)) eqn:E; [|reflexivity].
      apply (DIS k) in E; [|exact Hk]. rewrite (app_cons r n rest) in E. assert (below (r ++ [n]) ((r ++ [n]) ++ rest) = true) by (apply below_iff; eauto). congruence. }
    split; [eapply sub_trans; eassumption|]. split; [exact B2|]. split.
    { intros q Hq. rewrite B3; [apply A3; apply Hq; now left|]. intros k Hk. apply Hq. now right. }
    split.
    + intros k rest [<-|Hk] W; [|now apply B4]. rewrite KEEP. apply A4. now rewrite WX.
    + intros E C k rest. destruct (B5 E) as (-> & B6). intros [<-|Hk]; [|now apply B6]. cbn [fst]. rewrite KEEP, <- WX. apply A5; [reflexivity|].
      intros q a b. rewrite !(Ag n) by (try (now left); apply below_iff; eauto). rewrite <- !app_assoc. apply (C ([n] ++ q)).
Qed.

Lemma cleanDir_goal fuel : forall name r base s s' o, tree (cFs s) -> NoDup (map fst (cFs s)) -> cleanDir fuel name r base s = (s', o) ->
  goalDir name r base (cFs s) (cFs s') o.
Proof.
  induction fuel as [|fuel IH]; intros name r base s s' o T N.
  - cbn. intros [= <- <-]. split; [apply within_refl|]. split; [reflexivity|]. split; [intros rel; apply want_get|discriminate].
  - cbn [cleanDir CleanModel.cleanDir]. unfold mbind, reads.
    intros H. eapply (loop_goal _ name r base (cFs s)) in H; auto using sub_refl.
    + destruct H as (H1 & H2 & H3 & H4 & H5).
      assert (AT : get (cFs s') r = get (cFs s) r).
      { apply H3. intros n _. apply below_false. intros q E. rewrite <- app_assoc in E. symmetry in E. now apply app_ne in E. }
      assert (OUT : forall n rest, ~ In n (map fst (children (cFs s) r)) -> get (cFs s) (r ++ n :: rest) = get (cFs s') (r ++ n :: rest) /\ want (cFs s) name r base (n :: rest) = None).
      { intros n rest Hn. split.
        - symmetry. apply H3. intros k Hk. apply below_false. intros q E. rewrite <- app_assoc in E. apply app_inv_head in E. cbn in E.
          injection E as -> _. contradiction.
        - unfold want. cbn. destruct (get (cFs s) (r ++ [n])) as [e|] eqn:G; [|reflexivity]. elim Hn. apply children_in in G; [|exact N].
          now apply (in_map fst) in G. }
      split; [|split; [exact AT|split]].
      * split; [exact H1|]. split; [auto|]. intros q Hq. apply H3. intros n _. apply below_false. intros t ->.
        rewrite <- app_assoc in Hq. assert (below r (r ++ [n] ++ t) = true) by (apply below_iff; eauto). congruence.
      * intros [|n rest] W; [now elim W|]. destruct (in_dec (list_eq_dec Z.eq_dec) n (map fst (children (cFs s) r))) as [I|I]; [now apply H4|].
        elim W. now apply OUT.
      * intros E C [|n rest] Hrel; [now elim Hrel|]. destruct (in_dec (list_eq_dec Z.eq_dec) n (map fst (children (cFs s) r))) as [I|I]; [now apply H5|].
        destruct (OUT n rest I) as [A ->]. rewrite <- A. destruct (get (cFs s) (r ++ n :: rest)) as [x|] eqn:X; [|reflexivity]. exfalso.
        specialize (C [] n rest). cbn in C. destruct (get (cFs s) (r ++ [n])) as [y|] eqn:Y; [|apply C; congruence].
        apply I. apply children_in in Y; [|exact N]. now apply (in_map fst) in Y.
    + now apply children_nd.
    + intros n e Hn. now apply children_in in Hn.
Qed.

(** * It ends without error *)
Definition shorter (L : nat) (f : fs) : Prop := forall q e, get f q = Some e -> (length q < L)%nat.
Lemma shorter_sub L g f : sub g f -> shorter L f -> shorter L g.
Proof. intros S H q e E. destruct (S q e E) as (d & D & _). eauto. Qed.
Lemma cleanOne_ok rec name r base n e s s' o : nofail -> tree (cFs s) -> NoDup (map fst (cFs s)) -> get (cFs s) (r ++ [n]) = Some e ->
  (forall s1 s' o, sub (cFs s1) (cFs s) -> NoDup (map fst (cFs s1)) -> rec (slashed name n) (r ++ [n]) s1 = (s', o) -> o = Ok tt) ->
  cleanOne rec name r base (n, e) s = (s', o) -> o = Ok tt.
Proof.
  intros NF T N G R. unfold cleanOne, CleanModel.cleanOne. cbn [negb].
  assert (UL : forall s s' o, unlinkAt fail (r ++ [n]) s = (s', o) -> o = Ok tt).
  { intros x y z. unfold unlinkAt, call. rewrite NF. congruence. }
  destruct (base && isFile e && strLstExists ig n); [intros [= <- <-]; reflexivity|].
  destruct (eKind e) as [c| |d|] eqn:K.
  - destruct (findPath _ _); [destruct (findLink _ _)|]; try apply UL. intros H. apply attr_steps in H; [|exact G]. destruct H as (_ & _ & H & _). auto.
  - assert (PR : forall s' o, pathRemoveAt fail part (r ++ [n]) s = (s', o) -> o = Ok tt).
    { intros y z. unfold pathRemoveAt, call. rewrite NF. congruence. }
    destruct (findPath _ _) as [p|]; [destruct (findLink _ _)|]; try apply PR. intros H.
    destruct (mbind (cleanOwnership (r ++ [n]) (mpUser p) (mpGroup p) (eUser e) (eGroup e)) (fun _ => cleanMode (r ++ [n]) (mpMode p) e) s) as [s1 o1] eqn:E1.
    pose proof E1 as E2. apply attr_steps in E2 as (A1 & _ & A3 & _); [|exact G]. specialize (A3 NF). subst o1.
    unfold mbind, cleanOwnership, cleanMode in *. destruct (CleanModel.cleanOwnership _ _ _ _ _ _ _ _ _ s) as [s2 [[]|x|]]; try discriminate.
    destruct (CleanModel.cleanMode _ _ _ _ s2) as [s3 [[]|x|]]; try discriminate. injection E1 as ->. destruct A1 as (A1 & A2 & _).
    eapply R; [exact A1|auto|exact H].
  - destruct (findLink _ _) as [k|]; [|apply UL]. destruct (negb _); [apply UL|]. intros H. apply own_steps in H; [|exact G]. destruct H as (_ & _ & H & _). auto.
  - apply UL.
Qed.
Lemma loop_ok fuel name r base f l : nofail -> tree f -> NoDup (map fst f) -> NoDup (map fst l) -> (forall n e, In (n, e) l -> get f (r ++ [n]) = Some e) ->
  (forall n s s' o, get f (r ++ [n]) <> None -> sub (cFs s) f -> NoDup (map fst (cFs s)) -> cleanDir fuel (slashed name n) (r ++ [n]) false s = (s', o) -> o = Ok tt) ->
  forall s s' o, sub (cFs s) f -> NoDup (map fst (cFs s)) ->
  (forall n q, In n (map fst l) -> below (r ++ [n]) q = true -> get (cFs s) q = get f q) ->
  forM l (cleanOne (fun n p => cleanDir fuel n p false) name r base) s = (s', o) -> o = Ok tt.
Proof.
  intros NF T N. induction l as [|[n e] l IH]; intros NL L R s s' o Sub Ns Ag.
  - intros [= <- <-]. reflexivity.
  - cbn [forM]. unfold mbind at 1. destruct (cleanOne _ name r base (n, e) s) as [s1 o1] eqn:E1. cbn in NL. inversion NL as [|? ? NL1 NL2]; subst.
    assert (G : get (cFs s) (r ++ [n]) = Some e).
    { rewrite (Ag n); [apply L; now left|now left|apply below_self]. }
    assert (T1 : tree (cFs s)) by (eapply tree_sub; eassumption).
    assert (o1 = Ok tt).
    { eapply cleanOne_ok in E1; eauto. intros s2 s3 o2 S2 N2. apply R; [|eapply sub_trans; eassumption|exact N2].
      rewrite (L n e); [discriminate|now left]. }
    subst o1. apply cleanOne_goal in E1; auto; [|intros s2 s3 o2 T2 N2; now apply cleanDir_goal]. destruct E1 as ((A1 & A2 & A3) & _).
    apply IH; auto.
    + intros k x Hx. apply L. now right.
    + eapply sub_trans; eassumption.
    + intros k q Hk Hq. rewrite A3; [apply (Ag k); [now right|exact Hq]|]. apply below_false. intros t ->. apply below_iff in Hq as [t' Ht].
      rewrite <- !app_assoc in Ht. apply app_inv_head in Ht. cbn in Ht. injection Ht as -> _. contradiction.
Qed.
Lemma cleanDir_ok fuel : nofail -> forall name r base s s' o, tree (cFs s) -> NoDup (map fst (cFs s)) -> shorter (length r + fuel) (cFs s) -> (fuel <> 0)%nat ->
  cleanDir fuel name r base s = (s', o) -> o = Ok tt.
Proof.
  intros NF. induction fuel as [|fuel IH]; intros name r base s s' o T N S F; [congruence|].
  cbn [cleanDir CleanModel.cleanDir]. unfold mbind, reads.
  intros H. eapply (loop_ok fuel name r base (cFs s)) in H; auto using sub_refl.
  + now apply children_nd.
  + intros n e Hn. now apply children_in in Hn.
  + intros n s1 s2 o1 Hg Sub N1 H1. destruct (get (cFs s) (r ++ [n])) as [x|] eqn:X; [|congruence]. apply S in X. rewrite app_length in X. cbn in X.
    eapply IH in H1; auto.
    * eapply tree_sub; eassumption.
    * intros q e E. rewrite app_length. cbn. destruct (Sub _ _ E) as (d & D & _). apply S in D. lia.
    * lia.
Qed.
End Sys.

(** * What is left is what is to stay *)
Lemma findPath_in l n : (exists p, findPath l n = Some p) <-> In n (map mpName l).
Proof.
  unfold findPath. split.
  - intros [p H]. apply find_some in H as [A B]. apply strEqb_eq in B. subst n. now apply in_map.
  - intros H. apply in_map_iff in H as (p & <- & Hp). destruct (find _ l) as [q|] eqn:E; [eauto|].
    eapply find_none in E; [|exact Hp]. cbn in E. rewrite strEqb_refl in E. discriminate.
Qed.
Lemma findLink_none l n : findLink l n = None <-> ~ In n (map mlName l).
Proof.
  unfold findLink. split.
  - intros E H. apply in_map_iff in H as (p & <- & Hp). eapply find_none in E; [|exact Hp]. cbn in E. rewrite strEqb_refl in E. discriminate.
  - intros H. destruct (find _ l) as [q|] eqn:E; [|reflexivity]. apply find_some in E as [A B]. apply strEqb_eq in B. subst n. elim H. now apply in_map.
Qed.
Lemma want_keep ev ru rg m ig f rel : forall name r base, want ev ru rg m ig f name r base rel <> None <-> keep f m ig name r base rel.
Proof.
  induction rel as [|n rest IH]; intros name r base; [cbn; split; [intros H; now elim H|contradiction]|]. cbn [want keep].
  destruct (get f (r ++ [n])) as [e|]; [|split; [intros H; now elim H|contradiction]].
  pose proof (findLink_none (cmLinks m) (slashed name n)) as FL.
  pose proof (findPath_in (cmFiles m) (slashed name n)) as FF. pose proof (findPath_in (cmPaths m) (slashed name n)) as FP.
  destruct (eKind e) as [c| |d|].
  - destruct rest as [|k rest]; cbn [isNil negb].
    + destruct base; cbn [andb].
      * destruct (strLstExists ig n) eqn:X.
        -- apply strLstExists_in in X. split; [intros _; auto|congruence].
        -- assert (~ In n ig) as NX by (intros Y; apply strLstExists_in in Y; congruence).
           destruct (findPath (cmFiles m) _) as [p|] eqn:P; [destruct (findLink _ _) as [l|] eqn:L|].
           ++ split; [intros H; now elim H|]. intros (_ & [[_ A]|[_ A]]); [contradiction|]. apply FL in A. discriminate.
           ++ split; [intros _|discriminate]. split; [reflexivity|]. right. split; [apply FF; eauto|now apply FL].
           ++ split; [intros H; now elim H|]. intros (_ & [[_ A]|[A _]]); [contradiction|]. apply FF in A as [? A]. discriminate.
      * destruct (findPath (cmFiles m) _) as [p|] eqn:P; [destruct (findLink _ _) as [l|] eqn:L|].
        ++ split; [intros H; now elim H|]. intros (_ & [[A _]|[_ A]]); [discriminate|]. apply FL in A. discriminate.
        ++ split; [intros _|discriminate]. split; [reflexivity|]. right. split; [apply FF; eauto|now apply FL].
        ++ split; [intros H; now elim H|]. intros (_ & [[A _]|[A _]]); [discriminate|]. apply FF in A as [? A]. discriminate.
    + split; [intros H; now elim H|]. intros [A _]. discriminate.
  - destruct (findPath (cmPaths m) _) as [p|] eqn:P; [destruct (findLink _ _) as [l|] eqn:L|].
    + split; [intros H; now elim H|]. intros (_ & A & _). apply FL in A. discriminate.
    + destruct rest as [|k rest]; cbn [isNil].
      * split; [intros _|discriminate]. split; [apply FP; eauto|]. split; [now apply FL|now left].
      * rewrite IH. split; [intros H; split; [apply FP; eauto|]; split; [now apply FL|now right]|]. intros (_ & _ & [A|A]); [discriminate|exact A].
    + split; [intros H; now elim H|]. intros (A & _). apply FP in A as [? A]. discriminate.
  - destruct rest as [|k rest]; cbn [isNil negb].
    + destruct (findLink _ _) as [l|] eqn:L.
      * destruct (strEqb_spec (mlDestination l) d) as [E|E].
        -- split; [intros _; split; [reflexivity|eauto]|discriminate].
        -- split; [intros H; now elim H|]. intros (_ & k & [= <-] & A). contradiction.
      * split; [intros H; now elim H|]. intros (_ & k & A & _). discriminate.
    + split; [intros H; now elim H|]. intros [A _]. discriminate.
  - split; [intros H; now elim H|contradiction].
Qed.
Lemma want_attr ev ru rg m ig f rel : forall name r base e, want ev ru rg m ig f name r base rel = Some e ->
  (exists d, get f (r ++ rel) = Some d /\ eKind d = eKind e) /\
  (attrOk ev ru rg m (nameAt name rel) e \/ (base = true /\ exists n, rel = [n] /\ In n ig /\ get f (r ++ rel) = Some e)).
Proof.
  induction rel as [|n rest IH]; intros name r base e; [discriminate|]. cbn [want nameAt].
  destruct (get f (r ++ [n])) as [d|] eqn:G; [|discriminate]. unfold attrOk.
  destruct (eKind d) as [c| |t|] eqn:K; [| | |discriminate].
  - destruct rest as [|k rest]; cbn [isNil negb]; [|discriminate]. rewrite G. destruct (base && strLstExists ig n) eqn:B.
    + apply andb_true_iff in B as [-> B]. apply strLstExists_in in B. intros [= <-]. split; [eauto|]. right. eauto 10.
    + destruct (findPath (cmFiles m) _) as [p|] eqn:P; [destruct (findLink _ _) as [l|] eqn:L|]; try discriminate. intros [= <-]. cbn.
      split; [exists d; auto|]. left. rewrite K. exists p. auto.
  - destruct (findPath (cmPaths m) _) as [p|] eqn:P; [destruct (findLink _ _) as [l|] eqn:L|]; try discriminate.
    destruct rest as [|k rest]; cbn [isNil].
    + intros [= <-]. cbn. rewrite G. split; [exists d; auto|]. left. rewrite K. exists p. auto.
    + intros H. apply IH in H as [A [B|B]].
      * replace (r ++ n :: k :: rest) with ((r ++ [n]) ++ k :: rest) by (now rewrite <- app_assoc). split; [exact A|]. left. exact B.
      * destruct B as [B _]. discriminate.
  - destruct rest as [|k rest]; cbn [isNil negb]; [|discriminate]. rewrite G. destruct (findLink _ _) as [l|] eqn:L; [|discriminate].
    destruct (strEqb _ _); [|discriminate]. intros [= <-]. cbn. split; [exists d; auto|]. left. rewrite K. exists l. auto.
Qed.
