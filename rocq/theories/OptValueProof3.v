(** The value of an option is what its rules say *)
From Coq Require Import Lia Sorting.Sorted.
From Verif Require Import Base Str ConvertModel NumModel NumSpec NumProof OptNameModel OptLoadModel OptLoadProof OptSizeModel OptSizeSpec OptSizeProof OptSizeProof2 OptValueModel OptValueSpec OptValueProof OptValueProof2.
Open Scope Z_scope.
Open Scope list_scope.

Lemma look4 l : ordered l -> match look l 4 with Some (OAllow al) => In (OAllow al) l | Some _ => False | None => forall al, ~ In (OAllow al) l end.
Proof. intros O. destruct (look l 4) as [r|] eqn:E; [apply look_some in E; destruct E as [E K]; destruct r; try discriminate K; exact E|]. intros al I. exact (look_none l 4 E _ I eq_refl). Qed.

Lemma num_spec ty v sq m l x d q : isNum ty = true -> ordered l -> typed ty l -> (setValueF ty v sq m l = Ok (x, d, q) <->
  exists s r n q', pvValues v = s :: r /\ d = Some s /\ x = VInt n /\ q = 0 /\ numberIs ty s n /\ limitIs l m n /\ allowIs l (AllowInt n) q').
Proof.
  intros N O T. assert (TA : forall al, In (OAllow al) l -> forall y, In y al -> if false then exists s, fst y = AllowText s else exists z, fst y = AllowInt z) by (intros al I; specialize (T al I); destruct ty; try discriminate N; exact T).
  assert (E : setValueF ty v sq m l = match pvValues v with [] => UB | s :: _ =>
    let* vs := (let* n := intValue ty s in match limits l m with Some (lo, hi) => if (n <? lo) || (hi <? n) then Err EOptionInvalidValue else Ok (VInt n, n) | None => Ok (VInt n, n) end) in
    match look l 4 with Some (OAllow al) => let* q := allowValue false al s (snd vs) in Ok (fst vs, Some s, 0) | _ => Ok (fst vs, Some s, 0) end end).
  { unfold setValueF. destruct ty; try discriminate N; destruct (pvValues v); reflexivity. }
  rewrite E. clear E. destruct (pvValues v) as [|s r]; [split; [discriminate|intros (s & r & n & q' & H & _); discriminate]|].
  destruct (intValue ty s) as [n| |] eqn:I; cbn [bind].
  - apply (int_spec ty s n N) in I. assert (U : forall n', numberIs ty s n' -> n' = n) by (intros n' Q; apply (int_spec ty s n' N) in Q; apply (int_spec ty s n N) in I; congruence).
    pose proof (limits_spec l m n O) as LI. pose proof (allow_spec l (AllowInt n) false s n O eq_refl TA) as AL. pose proof (look4 l O) as L4.
    assert (M : forall R, (let* vs := Ok (VInt n, n) in match look l 4 with Some (OAllow al) => let* _ := allowValue false al s (snd vs) in Ok (fst vs, Some s, 0) | _ => Ok (fst vs, Some s, 0) end) = R -> (R = Ok (x, d, q) <-> d = Some s /\ x = VInt n /\ q = 0 /\ exists q', allowIs l (AllowInt n) q')).
    { intros R <-. cbn [bind fst snd]. destruct (look l 4) as [[| | |al| |]|]; try contradiction.
      - destruct (allowValue false al s n) as [q0| |] eqn:A; cbn [bind].
        + split; [intros [= <- <- <-]; repeat split; exists q0; apply AL; reflexivity|]. intros (-> & -> & -> & _). reflexivity.
        + split; [discriminate|]. intros (_ & _ & _ & q' & Q). apply AL in Q. discriminate Q.
        + split; [discriminate|]. intros (_ & _ & _ & q' & Q). apply AL in Q. discriminate Q.
      - split; [intros [= <- <- <-]; repeat split; exists 0; apply AL; reflexivity|]. intros (-> & -> & -> & _). reflexivity. }
    assert (FIN : limitIs l m n -> ((d = Some s /\ x = VInt n /\ q = 0 /\ exists q', allowIs l (AllowInt n) q') <-> exists s0 r0 n0 q', s :: r = s0 :: r0 /\ d = Some s0 /\ x = VInt n0 /\ q = 0 /\ numberIs ty s0 n0 /\ limitIs l m n0 /\ allowIs l (AllowInt n0) q')).
    { intros L. split; [intros (-> & -> & -> & q' & A); exists s, r, n, q'; do 4 (split; [reflexivity|]); split; [exact I|split; [exact L|exact A]]|]. intros (s0 & r0 & n0 & q' & [= <- <-] & -> & -> & -> & Q & _ & A). rewrite (U n0 Q) in *. repeat split. exists q'. exact A. }
    destruct (limits l m) as [[lo hi]|].
    + destruct ((n <? lo) || (hi <? n)) eqn:C.
      * split; [discriminate|]. intros (s0 & r0 & n0 & q' & [= <- <-] & _ & _ & _ & Q & L & _). rewrite (U n0 Q) in L. apply LI in L. apply Bool.orb_true_iff in C. rewrite !Z.ltb_lt in C. lia.
      * apply Bool.orb_false_iff in C. rewrite !Z.ltb_ge in C. rewrite (M _ eq_refl). apply FIN. apply LI. lia.
    + rewrite (M _ eq_refl). apply FIN. apply LI. exact Logic.I.
  - split; [discriminate|]. intros (s0 & r0 & n0 & q' & [= <- <-] & _ & _ & _ & Q & _). apply (int_spec ty s n0 N) in Q. congruence.
  - split; [discriminate|]. intros (s0 & r0 & n0 & q' & [= <- <-] & _ & _ & _ & Q & _). apply (int_spec ty s n0 N) in Q. congruence.
Qed.
Lemma setValueF_spec ty v sq m l x d q : ordered l -> typed ty l -> (setValueF ty v sq m l = Ok (x, d, q) -> valueIs ty v l m sq x d q) /\
  (valueIs ty v l m sq x d q -> ty <> THash -> setValueF ty v sq m l = Ok (x, d, q)) /\ (valueIs ty v l m sq x d q -> exists x', setValueF ty v sq m l = Ok (x', d, q)).
Proof.
  intros O T. assert (IFF : (setValueF ty v sq m l = Ok (x, d, q) <-> valueIs ty v l m sq x d q) ->
    (setValueF ty v sq m l = Ok (x, d, q) -> valueIs ty v l m sq x d q) /\ (valueIs ty v l m sq x d q -> ty <> THash -> setValueF ty v sq m l = Ok (x, d, q)) /\ (valueIs ty v l m sq x d q -> exists x', setValueF ty v sq m l = Ok (x', d, q))).
  { intros H. split; [apply H|]. split; [intros Q _; apply H; exact Q|]. intros Q. exists x. apply H. exact Q. }
  pose proof (look4 l O) as L4. destruct ty.
  - apply IFF. cbn [setValueF valueIs]. split; [intros [= <- <- <-]; auto|intros (-> & -> & ->); reflexivity].
  - cbn [setValueF valueIs]. split; [|split; [congruence|]].
    + destruct (hashValue (pvValues v) []) as [h| |] eqn:H; cbn [bind]; try discriminate. intros [= <- <- <-]. split; [exists h; split; [reflexivity|apply hash_spec; exact H]|auto].
    + intros ((h & -> & _ & H & _) & -> & ->). destruct (hash_exists (pvValues v) [] H) as (h' & ->). exists (VHash h'). reflexivity.
  - apply IFF. apply num_spec; [reflexivity|exact O|exact T].
  - apply IFF. cbn [setValueF valueIs]. split; [intros [= <- <- <-]; auto|intros (-> & -> & ->); reflexivity].
  - apply IFF. cbn [setValueF valueIs isNum isSid]. destruct (pvValues v) as [|s r]; [split; [discriminate|intros (s & r & p & H & _); discriminate]|]. destruct (look l 4) as [[| | |al| |]|]; try contradiction; [exfalso; exact (T al L4)|].
    destruct s as [|c s]; [split; [discriminate|intros (s & r0 & p & [= <- <-] & _ & _ & ((r1 & H) & _) & _); discriminate H]|]. destruct (pathValue (c :: s)) as [p| |] eqn:P; cbn [bind fst snd].
    + apply path_spec in P. split; [intros [= <- <- <-]; exists (c :: s), r, p; repeat split; apply P|]. intros (s0 & r0 & p0 & [= <- <-] & -> & -> & Q & ->). apply path_spec in Q, P. congruence.
    + split; [discriminate|]. intros (s0 & r0 & p0 & [= <- <-] & _ & _ & Q & _). apply path_spec in Q. congruence.
    + split; [discriminate|]. intros (s0 & r0 & p0 & [= <- <-] & _ & _ & Q & _). apply path_spec in Q. congruence.
  - apply IFF. apply num_spec; [reflexivity|exact O|exact T].
  - apply IFF. cbn [setValueF valueIs isNum isSid]. destruct (pvValues v) as [|s r]; [split; [discriminate|intros (s & r & H & _); discriminate]|]. destruct (look l 4) as [[| | |al| |]|]; try contradiction; [exfalso; exact (T al L4)|].
    destruct s as [|c s]; [split; [discriminate|intros (s & r0 & [= <- <-] & _ & H & _); congruence]|]. cbn [bind fst snd]. split; [intros [= <- <- <-]; exists (c :: s), r; repeat split; discriminate|]. intros (s0 & r0 & [= <- <-] & -> & _ & -> & ->). reflexivity.
  - apply IFF. cbn [setValueF valueIs isNum isSid]. destruct (pvValues v) as [|s r]; [split; [discriminate|intros (s & r & q' & H & _); discriminate]|]. cbn [bind fst snd andb].
    assert (TA : forall al, In (OAllow al) l -> forall y, In y al -> if true then exists s, fst y = AllowText s else exists z, fst y = AllowInt z) by (intros al I; exact (T al I)).
    pose proof (allow_spec l (AllowText s) true s 0 O eq_refl TA) as AL. destruct (look l 4) as [[| | |al| |]|]; try contradiction.
    + destruct (allowValue true al s 0) as [q0| |] eqn:A; cbn [bind].
      * split; [intros [= <- <- <-]; exists s, r, q0; repeat split; apply AL; reflexivity|]. intros (s0 & r0 & q1 & [= <- <-] & -> & -> & Q & ->). apply AL in Q. injection Q as ->. reflexivity.
      * split; [discriminate|]. intros (s0 & r0 & q1 & [= <- <-] & _ & _ & Q & _). apply AL in Q. discriminate Q.
      * split; [discriminate|]. intros (s0 & r0 & q1 & [= <- <-] & _ & _ & Q & _). apply AL in Q. discriminate Q.
    + split; [intros [= <- <- <-]; exists s, r, 0; repeat split; [apply AL; reflexivity|destruct sq; reflexivity]|]. intros (s0 & r0 & q1 & [= <- <-] & -> & -> & Q & ->). apply AL in Q. subst q1. destruct sq; reflexivity.
  - apply IFF. apply num_spec; [reflexivity|exact O|exact T].
Qed.

Lemma default_spec optional cmd bin o m sq : ordered (groupRules (optional o) cmd) -> forall x raw q, defaultF optional cmd bin o m sq = Some (x, raw, q) <-> defaultIs bin (groupRules (optional o) cmd) m sq x raw q.
Proof.
  intros O x raw q. unfold defaultF, defaultIs. set (l := groupRules (optional o) cmd) in *.
  assert (U : forall r, In r l -> kind r = 5 -> look l 5 = Some r) by (intros r I K; rewrite <- K; apply look_in; assumption).
  split.
  - destruct (look l 5) as [r|] eqn:E; [|discriminate]. apply look_some in E. destruct E as [E K]. destruct r; try discriminate K. destruct d as [|x0 raw0 q0|dl].
    + intros [= <- <- <-]. left. auto.
    + intros [= <- <- <-]. right. left. exists q0. auto.
    + pose proof (findMatch_spec dl m) as F. destruct (findMatch dl m) as [[x0 raw0]|]; [|discriminate]. intros [= <- <- <-]. destruct F as (a & b & F1 & F2). right. right. exists dl, a, b. auto.
  - intros [(I & -> & -> & ->)|[(q0 & I & ->)|(dl & a & b & I & -> & F & ->)]].
    + rewrite (U _ I eq_refl). reflexivity.
    + rewrite (U _ I eq_refl). reflexivity.
    + rewrite (U _ I eq_refl), findMatch_intro by exact F. reflexivity.
Qed.
Lemma required_spec optional cmd o r : ordered (groupRules (optional o) cmd) -> (requiredF optional cmd o r = true <-> needed r (groupRules (optional o) cmd)).
Proof.
  intros O. unfold requiredF, needed. destruct (look _ 6) as [x|] eqn:E.
  - apply look_some in E. destruct E as [E K]. destruct x; try discriminate K. rewrite Bool.negb_true_iff. split; [intros H; left; auto|intros [[_ H]|[N _]]; [exact H|contradiction]].
  - assert (N : ~ In ORequired (groupRules (optional o) cmd)) by (intros I; exact (look_none _ _ E _ I eq_refl)). split; [intros H; right; auto|intros [[I _]|[_ H]]; [contradiction|exact H]].
Qed.
Lemma sequenced_spec sequence optional cmd o sq : sequenced (sequence o) (groupRules (optional o) cmd) sq <-> sq = sqF sequence optional cmd o.
Proof.
  unfold sequenced, sqF. destruct (look _ 2) as [x|] eqn:E.
  - apply look_some in E. destruct E as [E K]. destruct x; try discriminate K. split; [intros [[_ H]|[N _]]; [exact H|contradiction]|intros H; left; auto].
  - assert (N : ~ In OSequence (groupRules (optional o) cmd)) by (intros I; exact (look_none _ _ E _ I eq_refl)). split; [intros [[I _]|[_ H]]; [contradiction|exact H]|intros H; right; auto].
Qed.

(** * Dependencies *)
Section Dep.
Variable rules : list rule.
Variable optional : nat -> list rgroup.
Variable cmd : nat.
Variable first : str.
Variable o : nat.
Let l := groupRules (optional o) cmd.
Hypothesis O : ordered l.
Hypothesis ONE : forall x d vals, In (OValid x d vals) l -> oneType vals.

Lemma look1 : match look l 1 with Some (OValid x d vals) => In (OValid x d vals) l /\ forall x' d' vals', In (OValid x' d' vals') l -> x' = x /\ d' = d /\ vals' = vals | Some _ => False | None => forall x d vals, ~ In (OValid x d vals) l end.
Proof.
  destruct (look l 1) as [r|] eqn:E; [|intros x d vals I; exact (look_none l 1 E _ I eq_refl)]. pose proof E as E'. apply look_some in E. destruct E as [E K]. destruct r; try discriminate K. split; [exact E|].
  intros x' d' vals' I. pose proof (look_in l _ O I) as Q. cbn [kind] in Q. rewrite Q in E'. injection E' as -> -> ->. auto.
Qed.
Lemma met_spec c idx set param m : met rules first c l idx m -> exists dflt, dependF rules optional cmd first o c idx set param = Ok (true, m, dflt).
Proof.
  intros H. unfold dependF. fold l. pose proof look1 as L. destruct (look l 1) as [[x d vals| | | | |]|]; try contradiction.
  - destruct L as [I L]. destruct H as [[H _]|(x' & d' & vals' & dv & I' & V & M)]; [exfalso; exact (H _ _ _ I)|]. destruct (L _ _ _ I') as (-> & -> & ->). apply valueAt_spec in V. rewrite V. cbn [bind].
    pose proof (depend_spec first dv vals (ONE _ _ _ I)) as D. destruct (depend dv vals first) as [[|] m']; [|exfalso; exact (D m M)]. destruct D as [_ D]. rewrite (D m M). cbn [negb andb]. exists x. reflexivity.
  - destruct H as [[_ ->]|(x' & d' & vals' & dv & I' & _)]; [exists None; reflexivity|exfalso; exact (L _ _ _ I')].
Qed.
Lemma unmet_spec c idx set param dflt : unmet rules first c l idx dflt -> exists d vals m, In (OValid dflt d vals) l /\
  dependF rules optional cmd first o c idx set param = (if set && param then let* _ := confValue c d idx in Err EOther else Ok (false, m, dflt)).
Proof.
  intros (d & vals & dv & I & V & M). unfold dependF. fold l. pose proof (look_in l _ O I) as Q. cbn [kind] in Q. rewrite Q. apply valueAt_spec in V. rewrite V. cbn [bind].
  pose proof (depend_spec first dv vals (ONE _ _ _ I)) as D. destruct (depend dv vals first) as [[|] m']; [exfalso; exact (M m' (proj1 D))|]. exists d, vals, m'. split; [exact I|]. cbn [negb andb]. reflexivity.
Qed.
Lemma met_or_unmet c idx set param y : dependF rules optional cmd first o c idx set param = Ok y -> (exists m, met rules first c l idx m /\ fst (fst y) = true /\ snd (fst y) = m) \/ (unmet rules first c l idx (snd y) /\ fst (fst y) = false).
Proof.
  unfold dependF. fold l. pose proof look1 as L. destruct (look l 1) as [[x d vals| | | | |]|]; try contradiction.
  - destruct L as [I _]. destruct (confValue c d _) as [dv| |] eqn:V; cbn [bind]; try discriminate. apply valueAt_spec in V. pose proof (depend_spec first dv vals (ONE _ _ _ I)) as D. destruct (depend dv vals first) as [[|] m'].
    + cbn [negb andb]. intros [= <-]. left. exists m'. split; [right; exists x, d, vals, dv; repeat split; try assumption; apply D|auto].
    + cbn [negb andb]. destruct (set && param); [destruct (confValue c d idx); discriminate|]. intros [= <-]. right. split; [exists d, vals, dv; auto|reflexivity].
  - intros [= <-]. left. exists first. split; [left; auto|auto].
Qed.
End Dep.

(** * All options *)
Section All.
Variable rules : list rule.
Variable sequence : nat -> bool.
Variable optional : nat -> list rgroup.
Variable cmd : nat.
Variable help : bool.
Variable bin : str.
Variable betaId : nat.
Variable first : str.
Variable t : table.
Variable valid : nat -> bool.
Variable maps : nat -> list Z.
Notation resolve := (resolve rules sequence optional cmd help bin betaId first t).
Notation resolveKeys := (resolveKeys rules sequence optional cmd help bin betaId first t).
Notation resolveAll := (resolveAll rules sequence optional cmd help bin betaId first t valid maps).

Lemma keys_spec c o r : forall keys idx row ks, resolveKeys c o r keys idx = Ok (row, ks) -> length row = length keys /\ length ks = length keys /\
  forall i k, nth_error keys i = Some k -> exists cv b, nth_error row i = Some cv /\ nth_error ks i = Some b /\ resolve c o r k (idx + i)%nat = Ok (cv, b).
Proof.
  induction keys as [|k keys IH]; intros idx row ks H; cbn [OptValueModel.resolveKeys] in H; [injection H as <- <-; repeat split; intros [|i] k; discriminate|].
  destruct (resolve c o r k idx) as [[cv b]| |] eqn:R; cbn [bind] in H; try discriminate. destruct (resolveKeys c o r keys (S idx)) as [[row' ks']| |] eqn:K; cbn [bind fst snd] in H; try discriminate. injection H as <- <-.
  destruct (IH (S idx) row' ks' K) as (I1 & I2 & I3). cbn [length]. split; [congruence|]. split; [congruence|]. intros [|i] k' E; cbn in E |- *.
  - injection E as <-. exists cv, b. rewrite Nat.add_0_r. auto.
  - destruct (I3 i k' E) as (cv' & b' & Q1 & Q2 & Q3). exists cv', b'. rewrite Nat.add_succ_r. auto.
Qed.
Lemma confGet_head c o row : confGet ((o, row) :: c) o = Some row.
Proof. cbn. rewrite Nat.eqb_refl. reflexivity. Qed.
Lemma confGet_tail c o o' row : o <> o' -> confGet ((o', row) :: c) o = confGet c o.
Proof. intros N. cbn. replace (o' =? o)%nat with false by (symmetry; apply Nat.eqb_neq; congruence). reflexivity. Qed.
Lemma all_other order : forall c keep c' keep' o, resolveAll order c keep = Ok (c', keep') -> ~ In o order -> confGet c' o = confGet c o.
Proof.
  induction order as [|x order IH]; intros c keep c' keep' o H N; cbn [OptValueModel.resolveAll] in H; [injection H as <- <-; reflexivity|]. destruct (valid x).
  - destruct (nth_error rules x) as [r|]; [|discriminate]. destruct (resolveKeys c x r (keysFor maps r) 0) as [[row ks]| |]; cbn [bind] in H; try discriminate. rewrite (IH _ _ _ _ o H (fun Q => N (or_intror Q))). apply confGet_tail. intros ->. apply N. left. reflexivity.
  - exact (IH _ _ _ _ o H (fun Q => N (or_intror Q))).
Qed.
Lemma all_app a b : forall c keep, resolveAll (a ++ b) c keep = let* x := resolveAll a c keep in resolveAll b (fst x) (snd x).
Proof.
  induction a as [|o a IH]; intros c keep; [reflexivity|]. cbn [app OptValueModel.resolveAll]. destruct (valid o); [|apply IH]. destruct (nth_error rules o) as [r|]; [|reflexivity]. destruct (resolveKeys c o r (keysFor maps r) 0) as [[row ks]| |]; cbn [bind]; try reflexivity. apply IH.
Qed.
Lemma kept_spec (g : nat) (ks : list bool) g' i : In (g', i) (map (fun i => (g, fst i)) (filter (fun i : nat * bool => snd i) (combine (seq 0 (length ks)) ks))) <-> g' = g /\ nth_error ks i = Some true.
Proof.
  assert (C : forall (ks : list bool) n j b, In (j, b) (combine (seq n (length ks)) ks) <-> exists i, j = (n + i)%nat /\ nth_error ks i = Some b).
  { clear. induction ks as [|x ks IH]; intros n j b; cbn [length seq combine In]; [split; [intros []|intros ([|i] & _ & H); discriminate]|]. rewrite IH. split.
    - intros [E|(i & -> & H)]; [injection E as <- <-; exists 0%nat; split; [lia|reflexivity]|exists (S i); split; [lia|exact H]].
    - intros ([|i] & -> & H); [left; injection H as ->; f_equal; lia|right; exists i; split; [lia|exact H]]. }
  rewrite in_map_iff. split.
  - intros ([j b] & E & H). apply filter_In in H. cbn in H, E. injection E as <- <-. destruct H as [H ->]. apply C in H. destruct H as (i0 & -> & H). auto.
  - intros [-> H]. exists (i, true). split; [reflexivity|]. apply filter_In. split; [|reflexivity]. apply C. exists i. auto.
Qed.
Lemma all_keep order : forall c keep c' keep', resolveAll order c keep = Ok (c', keep') -> forall g i, In (g, i) keep' <-> In (g, i) keep \/
  exists a o b c0 k0 r row ks, order = a ++ o :: b /\ valid o = true /\ nth_error rules o = Some r /\ resolveAll a c keep = Ok (c0, k0) /\ resolveKeys c0 o r (keysFor maps r) 0 = Ok (row, ks) /\ nth_error ks i = Some true /\ g = match rGroup r with Some g => g | None => 0%nat end.
Proof.
  induction order as [|x order IH]; intros c keep c' keep' H g i.
  - cbn [OptValueModel.resolveAll] in H. injection H as <- <-. split; [left; assumption|]. intros [Q|([|y a] & o & b & _ & _ & _ & _ & _ & E & _)]; [exact Q|discriminate|discriminate].
  - assert (TL : forall cN kN, resolveAll [x] c keep = Ok (cN, kN) -> ((exists a o b c0 k0 r row ks, order = a ++ o :: b /\ valid o = true /\ nth_error rules o = Some r /\ resolveAll a cN kN = Ok (c0, k0) /\ resolveKeys c0 o r (keysFor maps r) 0 = Ok (row, ks) /\ nth_error ks i = Some true /\ g = match rGroup r with Some g => g | None => 0%nat end) <->
      (exists a o b c0 k0 r row ks, x :: order = (x :: a) ++ o :: b /\ valid o = true /\ nth_error rules o = Some r /\ resolveAll (x :: a) c keep = Ok (c0, k0) /\ resolveKeys c0 o r (keysFor maps r) 0 = Ok (row, ks) /\ nth_error ks i = Some true /\ g = match rGroup r with Some g => g | None => 0%nat end))).
    { intros cN kN E. split; intros (a & o & b & c0 & k0 & r & row & ks & Q1 & Q2 & Q3 & Q4 & Q); exists a, o, b, c0, k0, r, row, ks; (split; [first [cbn [app]; f_equal; exact Q1|injection Q1; auto]|]; split; [exact Q2|]; split; [exact Q3|]; split; [|exact Q]); change (x :: a) with ([x] ++ a) in *; rewrite all_app, E in *; exact Q4. }
    cbn [OptValueModel.resolveAll] in H. destruct (valid x) eqn:V.
    + destruct (nth_error rules x) as [r|] eqn:R; [|discriminate]. destruct (resolveKeys c x r (keysFor maps r) 0) as [[row ks]| |] eqn:K; cbn [bind fst snd] in H; try discriminate. rewrite (IH _ _ _ _ H g i), (TL _ _ ltac:(cbn [OptValueModel.resolveAll]; rewrite V, R, K; reflexivity)), in_app_iff, kept_spec. split.
      * intros [[Q|[-> Q]]|(a & o & b & Q)]; [left; exact Q| |right; exists (x :: a), o, b; exact Q]. right. exists [], x, order, c, keep, r, row, ks. auto 10.
      * intros [Q|([|y a] & o & b & c0 & k0 & r0 & row0 & ks0 & Q1 & Q2 & Q3 & Q4 & Q5 & Q6 & Q7)]; [left; left; exact Q| |].
        -- cbn [app] in Q1. injection Q1 as <- <-. cbn [OptValueModel.resolveAll] in Q4. injection Q4 as <- <-. rewrite R in Q3. injection Q3 as <-. rewrite K in Q5. injection Q5 as <- <-. left. right. auto.
        -- right. pose proof Q1 as Q1'. cbn [app] in Q1'. injection Q1' as <- _. exists a, o, b, c0, k0, r0, row0, ks0. auto 10.
    + rewrite (IH _ _ _ _ H g i), (TL _ _ ltac:(cbn [OptValueModel.resolveAll]; rewrite V; reflexivity)). split.
      * intros [Q|(a & o & b & Q)]; [left; exact Q|right; exists (x :: a), o, b; exact Q].
      * intros [Q|([|y a] & o & b & c0 & k0 & r0 & row0 & ks0 & Q1 & Q2 & Q)]; [left; exact Q| |].
        -- cbn [app] in Q1. injection Q1 as <- <-. congruence.
        -- right. pose proof Q1 as Q1'. cbn [app] in Q1'. injection Q1' as <- _. exists a, o, b, c0, k0, r0, row0, ks0. auto 10.
Qed.
End All.

(** * No undefined behavior *)
Section Safe.
Variable rules : list rule.
Variable sequence : nat -> bool.
Variable optional : nat -> list rgroup.
Variable cmd : nat.
Variable help : bool.
Variable bin : str.
Variable betaId : nat.
Variable first : str.
Variable t : table.
Variable valid : nat -> bool.
Variable maps : nat -> list Z.
Notation resolve := (resolve rules sequence optional cmd help bin betaId first t).
Notation resolveKeys := (resolveKeys rules sequence optional cmd help bin betaId first t).
Notation resolveAll := (resolveAll rules sequence optional cmd help bin betaId first t valid maps).

(** The value given can be read: there is one, and a time is not one of those of C72_time_buffer_refuted and C72_time_overflow_refuted *)
Definition readable (ty : otype) (v : pvalue) : Prop :=
  match ty with TBoolean | THash | TList => True | TTime => exists s r, pvValues v = s :: r /\ parseTime s <> UB | _ => pvValues v <> [] end.

Lemma hashValue_safe vals : forall h, hashValue vals h <> UB.
Proof. induction vals as [|s vals IH]; intros h; cbn [hashValue]; [discriminate|]. destruct (splitEqual s) as [k [v|]]; [apply IH|discriminate]. Qed.
Lemma intValue_safe ty s : isNum ty = true -> (ty = TTime -> parseTime s <> UB) -> intValue ty s <> UB.
Proof.
  intros N H. unfold intValue. assert (B : 2 <= 10 <= 16) by lia. destruct ty; try discriminate N.
  - destruct (cvt_kind s) as [[n ->]| ->]; discriminate.
  - destruct (parseSize_kind s) as [[n ->]| ->]; discriminate.
  - specialize (H eq_refl). destruct (parseTime s); congruence.
Qed.
Lemma allowValue_safe sid al s n : allowValue sid al s n <> UB.
Proof.
  unfold allowValue. assert (A : forall l q, allowSearch sid l s n q <> UB).
  { induction l as [|[a mk] l IH]; intros q; cbn [allowSearch]; [discriminate|]. destruct (match a with AllowText _ => _ | AllowInt _ => _ end); [destruct mk; discriminate|apply IH]. }
  specialize (A al 0). destruct (allowSearch sid al s n 0) as [[r|]| |]; cbn [bind]; try discriminate; [destruct (existsb snd al); discriminate|congruence].
Qed.
Lemma pathValue_safe s : pathValue s <> UB.
Proof. unfold pathValue. destruct s as [|c r]; [discriminate|]. destruct (negb (c =? 47)); [discriminate|]. destruct (hasDoubleSlash (c :: r)); discriminate. Qed.
Lemma setValueF_safe ty v sq m l : readable ty v -> setValueF ty v sq m l <> UB.
Proof.
  intros R.
  assert (AL : forall (vs : oval * Z) s, match look l 4 with Some (OAllow al) => let* q := allowValue (isSid ty) al s (snd vs) in Ok (fst vs, Some s, if isSid ty && sq then q else 0) | _ => Ok (fst vs, Some s, 0) end <> UB).
  { intros vs s. destruct (look l 4) as [[| | |al| |]|]; try discriminate. pose proof (allowValue_safe (isSid ty) al s (snd vs)) as A. destruct (allowValue (isSid ty) al s (snd vs)); cbn [bind]; congruence. }
  unfold setValueF. destruct ty; cbn [readable isNum isSid] in *; try discriminate.
  - pose proof (hashValue_safe (pvValues v) []) as H. destruct (hashValue (pvValues v) []); cbn [bind]; congruence.
  - destruct (pvValues v) as [|s r]; [congruence|]. pose proof (intValue_safe TInteger s eq_refl ltac:(discriminate)) as I. destruct (intValue TInteger s) as [n| |]; cbn [bind]; try congruence. destruct (limits l m) as [[lo hi]|]; [destruct ((n <? lo) || (hi <? n)); cbn [bind]; [discriminate|]|cbn [bind]]; apply AL.
  - destruct (pvValues v) as [|s r]; [congruence|]. destruct s as [|c s]; [discriminate|]. pose proof (pathValue_safe (c :: s)) as P. destruct (pathValue (c :: s)) as [p| |]; cbn [bind]; try congruence. apply AL.
  - destruct (pvValues v) as [|s r]; [congruence|]. pose proof (intValue_safe TSize s eq_refl ltac:(discriminate)) as I. destruct (intValue TSize s) as [n| |]; cbn [bind]; try congruence. destruct (limits l m) as [[lo hi]|]; [destruct ((n <? lo) || (hi <? n)); cbn [bind]; [discriminate|]|cbn [bind]]; apply AL.
  - destruct (pvValues v) as [|s r]; [congruence|]. destruct s as [|c s]; [discriminate|]. cbn [bind]. apply AL.
  - destruct (pvValues v) as [|s r]; [congruence|]. cbn [bind]. apply AL.
  - destruct R as (s & r & -> & P). pose proof (intValue_safe TTime s eq_refl (fun _ => P)) as I. destruct (intValue TTime s) as [n| |]; cbn [bind]; try congruence. destruct (limits l m) as [[lo hi]|]; [destruct ((n <? lo) || (hi <? n)); cbn [bind]; [discriminate|]|cbn [bind]]; apply AL.
Qed.

Lemma resolve_safe c o r k idx : let l := groupRules (optional o) cmd in ordered l ->
  (forall x d vals, In (OValid x d vals) l -> confValue c d (if grouped rules d then idx else 0%nat) <> UB /\ (pvParam (given t o k) = true -> confValue c d idx <> UB)) ->
  (isSet t o k r = true -> readable (rType r) (given t o k)) -> resolve c o r k idx <> UB.
Proof.
  intros l O D R. subst l. rewrite (resolve_eq rules sequence optional cmd help bin betaId first t o O). unfold resolveF. cbv zeta.
  assert (DS : forall set, dependF rules optional cmd first o c idx set (pvParam (given t o k)) <> UB).
  { intros set. unfold dependF. pose proof (look1 optional cmd o O) as L. destruct (look _ 1) as [[x d vals| | | | |]|]; try discriminate. destruct L as [I _]. destruct (D x d vals I) as [D1 D2]. destruct (confValue c d (if grouped rules d then idx else 0%nat)) as [dv| |]; cbn [bind]; try congruence.
    destruct (depend dv vals first) as [met m]. destruct (negb met && set && pvParam (given t o k)) eqn:C; [|discriminate]. apply Bool.andb_true_iff in C. destruct C as [_ C]. specialize (D2 C). destruct (confValue c d idx); cbn [bind]; congruence. }
  specialize (DS (isSet t o k r)). destruct (dependF _ _ _ _ _ _ _ _ _) as [[[met m] dflt]| |]; cbn [bind]; try congruence. destruct met; [|destruct dflt; discriminate].
  assert (F : forall cv, finalF sequence optional cmd help bin o r (given t o k) m cv <> UB).
  { intros cv. unfold finalF. destruct (_ || help); [|discriminate]. destruct (defaultF _ _ _ _ _ _) as [[[x raw] q]|]; [discriminate|]. destruct help; [discriminate|]. destruct (requiredF _ _ _ _); discriminate. }
  destruct (isSet t o k r) eqn:S; [|cbn [bind]; apply F]. destruct (betaError betaId t o r); [discriminate|]. pose proof (R eq_refl) as RD.
  pose proof (setValueF_safe (rType r) (given t o k) (sqF sequence optional cmd o) m (groupRules (optional o) cmd) RD) as SV. destruct (setValueF _ _ _ _ _) as [[[x d] q]| |]; cbn [bind]; [apply F|discriminate|congruence].
Qed.

Hypothesis ORD : forall o, ordered (groupRules (optional o) cmd).
(** The values resolved so far: one for each index *)
Definition rows (a : list nat) (c : conf) : Prop := forall o r, In o a -> valid o = true -> nth_error rules o = Some r -> exists row, confGet c o = Some row /\ length row = length (keysFor maps r).
Definition depsFine (a : list nat) (o : nat) (r : rule) : Prop := forall x d vals, In (OValid x d vals) (groupRules (optional o) cmd) -> In d a /\ valid d = true /\ exists rd, nth_error rules d = Some rd /\
  (rGroup rd = rGroup r \/ (rGroup rd = None /\ ((length (keysFor maps r) <= 1)%nat \/ forall k, In k (keysFor maps r) -> pvParam (given t o k) = false))).
Lemma keys_safe a c o r : rows a c -> depsFine a o r -> forall keys idx, (forall k, In k keys -> isSet t o k r = true -> readable (rType r) (given t o k)) ->
  (exists p, keysFor maps r = p ++ keys /\ idx = length p) -> resolveKeys c o r keys idx <> UB.
Proof.
  intros RW DF. induction keys as [|k keys IH]; intros idx RD (p & E & ->); cbn [OptValueModel.resolveKeys]; [discriminate|].
  assert (S : resolve c o r k (length p) <> UB).
  { apply resolve_safe; [apply ORD| |apply RD; left; reflexivity]. intros x d vals I. destruct (DF x d vals I) as (IA & VD & rd & RE & C). destruct (RW d rd IA VD RE) as (row & CG & LR).
    assert (AT : forall i, (i < length row)%nat -> confValue c d i <> UB) by (intros i L; unfold confValue; rewrite CG; destruct (nth_error row i) eqn:Q; [discriminate|apply nth_error_None in Q; lia]).
    assert (LK : (length p < length (keysFor maps r))%nat) by (rewrite E, app_length; cbn [length]; lia). unfold grouped. rewrite RE. destruct C as [C|[C1 C2]].
    - assert (KE : keysFor maps rd = keysFor maps r) by (unfold keysFor; rewrite C; reflexivity). rewrite KE in LR. split; [|intros _; apply AT; lia]. apply AT. destruct (rGroup rd); lia.
    - rewrite C1. assert (LR1 : length row = 1%nat) by (rewrite LR; unfold keysFor; rewrite C1; reflexivity). split; [apply AT; lia|]. intros P. destruct C2 as [C2|C2]; [apply AT; lia|]. rewrite (C2 k) in P; [discriminate|]. rewrite E. apply in_or_app. right. left. reflexivity. }
  destruct (resolve c o r k (length p)) as [[cv b]| |]; cbn [bind]; try congruence. assert (K : resolveKeys c o r keys (Datatypes.S (length p)) <> UB).
  { apply IH; [intros k' I; apply RD; right; exact I|]. exists (p ++ [k]). split; [rewrite <- app_assoc; exact E|rewrite app_length; cbn; lia]. }
  destruct (resolveKeys c o r keys (Datatypes.S (length p))) as [[row ks]| |]; cbn [bind]; congruence.
Qed.
Lemma all_safe order : forall a c keep, rows a c ->
  (forall p o q, order = p ++ o :: q -> valid o = true -> exists r, nth_error rules o = Some r /\ depsFine (a ++ p) o r /\ forall k, In k (keysFor maps r) -> isSet t o k r = true -> readable (rType r) (given t o k)) ->
  resolveAll order c keep <> UB.
Proof.
  induction order as [|o order IH]; intros a c keep RW W; cbn [OptValueModel.resolveAll]; [discriminate|].
  assert (TL : forall p o' q, order = p ++ o' :: q -> valid o' = true -> exists r, nth_error rules o' = Some r /\ depsFine ((a ++ [o]) ++ p) o' r /\ forall k, In k (keysFor maps r) -> isSet t o' k r = true -> readable (rType r) (given t o' k)).
  { intros p o' q -> V. rewrite <- app_assoc. exact (W (o :: p) o' q eq_refl V). }
  destruct (valid o) eqn:V.
  - destruct (W [] o order eq_refl V) as (r & RE & DF & RD). rewrite RE. rewrite app_nil_r in DF. pose proof (keys_safe a c o r RW DF (keysFor maps r) 0%nat RD (ex_intro _ [] (conj eq_refl eq_refl))) as K.
    destruct (resolveKeys c o r (keysFor maps r) 0) as [[row ks]| |] eqn:KE; cbn [bind fst snd]; try congruence. apply (IH (a ++ [o])); [|exact TL]. intros o' r' I V' RE'. destruct (Nat.eq_dec o' o) as [->|N].
    + exists row. split; [apply confGet_head|]. assert (r' = r) as -> by congruence. apply (keys_spec rules sequence optional cmd help bin betaId first t) in KE. apply KE.
    + rewrite confGet_tail by exact N. apply in_app_or in I. destruct I as [I|[I|[]]]; [apply (RW o' r'); assumption|congruence].
  - apply (IH (a ++ [o])); [|exact TL]. intros o' r' I V' RE'. apply in_app_or in I. destruct I as [I|[I|[]]]; [apply (RW o' r'); assumption|congruence].
Qed.
End Safe.
