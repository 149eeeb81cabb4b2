(** The loop which removes unlogged relations. *)
From Coq Require Import String.
From Verif Require Import Base Str ArchiveIdModel RegModel RegSpec RegNameModel RegProof3 LinkCheckModel LinkCheckProof2 LinkCheckProof3 SelectModel SelectSpec SelectProof SelectProof2
  UnloggedModel UnloggedSpec UnloggedProof.
Open Scope Z_scope.
Open Scope list_scope.

(** * The parts of a name *)
Definition stops (x : str) : Prop := match x with [] => True | c :: _ => isDigit c = false end.
Lemma leading_app id x : digits id -> stops x -> leadingDigits (id ++ x) = id.
Proof.
  intros H S. induction id as [| c id IH].
  - destruct x as [| c x]; [reflexivity|]. cbn [app leadingDigits]. cbn [stops] in S. rewrite S. reflexivity.
  - cbn [app leadingDigits]. replace (isDigit c) with true by (symmetry; unfold isDigit; specialize (H c (or_introl eq_refl)); lia).
    rewrite IH; [reflexivity|]. intros y Hy. apply H. right. exact Hy.
Qed.
Lemma suffix_stops x : relationSuffix x -> stops x.
Proof. intros (fork & seg & -> & [<- | [<- | [<- | []]]] & [-> | (n & _ & ->)]); reflexivity. Qed.
Lemma suffix_noslash x : relationSuffix x -> noSlash x.
Proof.
  intros (fork & seg & -> & HF & HS) F. apply in_app_or in F. destruct F as [F | F].
  - destruct HF as [<- | [<- | [<- | []]]]; revert F; vm_compute; intuition discriminate.
  - destruct HS as [-> | (n & Hn & ->)]; [destruct F|]. destruct F as [F | F]; [discriminate|]. exact (id_noslash n Hn F).
Qed.
Lemma rel_noslash id x : isId id -> relationSuffix x -> noSlash (id ++ x).
Proof. intros H S F. apply in_app_or in F. destruct F as [F | F]; [exact (id_noslash id H F) | exact (suffix_noslash x S F)]. Qed.

Section Rel.
Variable tid : str.
Lemma rel_parts f p id : relation tid f p id -> exists x, relationSuffix x /\ f = p ++ 47 :: id ++ x /\ strBase f = id ++ x.
Proof. intros (_ & HI & x & HX & ->). exists x. split; [exact HX|]. split; [reflexivity|]. cbn [txt app]. apply strBase_app, rel_noslash; assumption. Qed.
Lemma rel_id f p id : relation tid f p id -> leadingDigits (strBase f) = id.
Proof. intros H. destruct (rel_parts f p id H) as (x & HX & _ & ->). destruct H as (_ & (_ & HD) & _). apply leading_app; [exact HD | apply suffix_stops, HX]. Qed.
Lemma rel_init f p id : relation tid f p id -> initName f id = p ++ txt "/" ++ id ++ txt "_init".
Proof.
  intros H. unfold initName. destruct (rel_parts f p id H) as (x & HX & E & ->). rewrite E.
  assert (L : (length (p ++ 47%Z :: id ++ x) - length (id ++ x) = length (p ++ [47%Z]))%nat) by (rewrite !app_length; cbn [length]; rewrite app_length; lia).
  rewrite L. replace (p ++ 47 :: id ++ x) with ((p ++ [47]) ++ id ++ x) by (rewrite <- app_assoc; reflexivity).
  rewrite firstn_app, firstn_all, Nat.sub_diag. cbn [firstn]. rewrite app_nil_r, <- app_assoc. reflexivity.
Qed.
Lemma rel_path f p id : relation tid f p id -> upToSlash f = p ++ [47].
Proof.
  intros H. destruct (rel_parts f p id H) as (x & HX & E & _). destruct H as (_ & HI & _). rewrite E. apply upToSlash_app, rel_noslash; assumption.
Qed.
Lemma rel_same f p id p' id' : relation tid f p id -> relation tid f p' id' -> p = p' /\ id = id'.
Proof.
  intros H H'. split.
  - apply (app_inj_tail p p' 47 47). rewrite <- (rel_path f p id H). exact (rel_path f p' id' H').
  - rewrite <- (rel_id f p id H). exact (rel_id f p' id' H').
Qed.
(** An init fork is not a file of the expression *)
Lemma init_not_rel p id q i : isId id -> ~ relation tid (p ++ txt "/" ++ id ++ txt "_init") q i.
Proof.
  intros HI H. pose proof (rel_id _ _ _ H) as HD. destruct (rel_parts _ _ _ H) as (x & HX & _ & EB).
  assert (NS : noSlash (id ++ txt "_init")).
  { intros F. apply in_app_or in F. destruct F as [F | F]; [exact (id_noslash id HI F)|]. revert F. vm_compute. intuition discriminate. }
  assert (EB2 : strBase (p ++ txt "/" ++ id ++ txt "_init") = id ++ txt "_init") by (exact (strBase_app p _ NS)).
  rewrite EB2 in HD, EB. rewrite leading_app in HD; [| apply HI | reflexivity]. subst i. apply app_inv_head in EB. subst x.
  destruct HX as (fork & seg & E & HF & HS).
  destruct HF as [<- | [<- | [<- | []]]]; destruct HS as [-> | (n & Hn & ->)]; cbn in E; discriminate E.
Qed.
End Rel.

(** * The loop *)
Section Loop.
Variables (tid : str) (rel : re) (files : list str) (keep : str -> bool).
Hypothesis HR : forall f, regExpMatch rel f = true <-> exists p id, relation tid f p id.
Hypothesis HK : forall f, In f files -> keep f = true <-> ~ exists p id, relation tid f p id /\ unlogged files p id.
Definition shortIds : Prop := forall f p id, In f files -> relation tid f p id -> (length id <= 20)%nat.

Lemma keep_rel f p id : In f files -> relation tid f p id -> keep f = true <-> ~ unlogged files p id.
Proof.
  intros HF H. rewrite (HK f HF). split; [intros N U; apply N; eauto|]. intros N (p' & id' & H' & U). destruct (rel_same tid f p id p' id' H H') as [<- <-]. exact (N U).
Qed.
Lemma keep_other f : In f files -> regExpMatch rel f = false -> keep f = true.
Proof.
  intros HF H. apply HK; [exact HF|]. intros (p & id & H' & _). assert (regExpMatch rel f = true) by (apply HR; eauto). congruence.
Qed.

Definition noRel (m : list str) : Prop := forall g q i, In g m -> ~ relation tid g q i.
(** The last file of a relation among those before the place of the loop *)
Definition lastIs (done : list str) (id : str) (u : bool) : Prop :=
  (id = [] /\ noRel done) \/ exists a g m p, done = a ++ g :: m /\ relation tid g p id /\ noRel m /\ (u = true <-> unlogged files p id).
Definition agreeAt (d : list str) (f' : str) : Prop :=
  forall a g m p p' id, d = a ++ g :: m -> relation tid g p id -> noRel m -> relation tid f' p' id -> unlogged files p id <-> unlogged files p' id.

Lemma noClash_agree : noClash tid files <-> forall d f' b, files = d ++ f' :: b -> agreeAt d f'.
Proof.
  split.
  - intros H d f' b E a g m p p' id -> HG HM HF. apply (H a g m f' b p p' id); try assumption. rewrite E, <- app_assoc. reflexivity.
  - intros H a f m f' b p p' id E HF HF' HM. apply (H (a ++ f :: m) f' b) with (a := a) (g := f) (m := m); try assumption; [| reflexivity]. rewrite E, <- app_assoc. reflexivity.
Qed.

(** The init fork is among the files that are left as it was among all files *)
Lemma init_left done todo p id : files = done ++ todo -> isId id ->
  In (p ++ txt "/" ++ id ++ txt "_init") (filter keep done ++ todo) <-> unlogged files p id.
Proof.
  intros E HI. unfold unlogged. rewrite E. rewrite !in_app_iff, filter_In. split; [tauto|]. intros [H | H]; [left | now right]. split; [exact H|].
  apply HK; [rewrite E; apply in_or_app; now left|]. intros (q & i & F & _). exact (init_not_rel tid p id q i HI F).
Qed.

(** What is found for a file of a relation *)
Definition found (done todo : list str) (f lastId : str) (u : bool) : bool :=
  let id := leadingDigits (strBase f) in if strEqb lastId id then u else strLstExists (filter keep done ++ todo) (initName f id).
Lemma found_last done f todo lastId u p id : files = done ++ f :: todo -> lastIs done lastId u -> relation tid f p id -> agreeAt done f ->
  found done (f :: todo) f lastId u = true <-> unlogged files p id.
Proof.
  intros E HL H HA. unfold found. rewrite (rel_id tid f p id H). destruct (strEqb_spec lastId id) as [-> | N].
  - destruct HL as [(-> & _) | (a & g & m & q & E2 & HG & HM & HU)].
    + destruct H as (_ & (F & _) & _). now elim F.
    + rewrite HU. exact (HA a g m q p id E2 HG HM H).
  - rewrite strLstExists_in, (rel_init tid f p id H). apply init_left; [exact E|]. apply H.
Qed.
Lemma found_back done f todo lastId u : files = done ++ f :: todo -> lastIs done lastId u ->
  (forall p id, relation tid f p id -> found done (f :: todo) f lastId u = true <-> unlogged files p id) -> agreeAt done f.
Proof.
  intros E HL H a g m p p' id E2 HG HM HF. specialize (H p' id HF). unfold found in H. rewrite (rel_id tid f p' id HF) in H.
  destruct HL as [(-> & HN) | (a' & g' & m' & q & E3 & HG' & HM' & HU)].
  - exfalso. apply (HN g p id); [| exact HG]. rewrite E2. apply in_or_app. right. now left.
  - (* the last file is the same *)
    assert (S : a = a' /\ g = g' /\ m = m').
    { clear - E2 E3 HG HG' HM HM'. rewrite E2 in E3. clear E2. revert a' E3. induction a as [| x a IH]; intros a' E3; destruct a' as [| x' a']; cbn [app] in E3.
      - injection E3 as -> ->. auto.
      - injection E3 as -> ->. exfalso. apply (HM g' q lastId); [| exact HG']. apply in_or_app. right. now left.
      - injection E3 as -> <-. exfalso. apply (HM' g p id); [| exact HG]. apply in_or_app. right. now left.
      - injection E3 as -> E3. destruct (IH a' E3) as (-> & -> & ->). auto. }
    destruct S as (<- & <- & <-). destruct (rel_same tid g p id q lastId HG HG') as [<- <-]. rewrite strEqb_refl in H. tauto.
Qed.

Lemma run_rel done f todo lastId u p id : relation tid f p id -> (length id <= 20)%nat ->
  removeUnlogged rel (rev (filter keep done)) (f :: todo) lastId u =
  let u' := found done (f :: todo) f lastId u in removeUnlogged rel (if u' then rev (filter keep done) else f :: rev (filter keep done)) todo id u'.
Proof.
  intros H HL. cbn [removeUnlogged]. replace (regExpMatch rel f) with true by (symmetry; apply HR; eauto). unfold found. rewrite (rel_id tid f p id H), rev_involutive.
  destruct (Nat.ltb_spec 20 (length id)); [lia|]. cbv zeta. destruct (if strEqb lastId id then u else _); reflexivity.
Qed.
Lemma last_rel done f p id u : relation tid f p id -> (u = true <-> unlogged files p id) -> lastIs (done ++ [f]) id u.
Proof. intros H HU. right. exists done, f, [], p. split; [reflexivity|]. split; [exact H|]. split; [intros g q i []|]. exact HU. Qed.
Lemma last_other done f id u : regExpMatch rel f = false -> lastIs done id u -> lastIs (done ++ [f]) id u.
Proof.
  intros HF HL. assert (HN : forall q i, ~ relation tid f q i) by (intros q i F; assert (regExpMatch rel f = true) by (apply HR; eauto); congruence).
  destruct HL as [(-> & H) | (a & g & m & p & -> & HG & HM & HU)].
  - left. split; [reflexivity|]. intros g q i HI. apply in_app_or in HI. destruct HI as [HI | [<- | []]]; [exact (H g q i HI) | apply HN].
  - right. exists a, g, (m ++ [f]), p. split; [rewrite <- app_assoc; reflexivity|]. split; [exact HG|]. split; [| exact HU].
    intros h q i HI. apply in_app_or in HI. destruct HI as [HI | [<- | []]]; [exact (HM h q i HI) | apply HN].
Qed.
Lemma in_here done f todo : files = done ++ f :: todo -> In f files.
Proof. intros ->. apply in_or_app. right. now left. Qed.
Lemma split_next (done : list str) f todo : done ++ f :: todo = (done ++ [f]) ++ todo.
Proof. rewrite <- app_assoc. reflexivity. Qed.
Lemma keep_next done f (b : bool) : keep f = negb b -> rev (filter keep (done ++ [f])) = if b then rev (filter keep done) else f :: rev (filter keep done).
Proof. intros H. rewrite filter_app. cbn [filter]. rewrite H. destruct b; cbn [negb]; [rewrite app_nil_r; reflexivity|]. rewrite rev_app_distr. reflexivity. Qed.
Lemma keep_found f p id b : In f files -> relation tid f p id -> (b = true <-> unlogged files p id) -> keep f = negb b.
Proof.
  intros HF H HB. pose proof (keep_rel f p id HF H) as HE. destruct b; cbn [negb].
  - apply not_true_iff_false. intros K. apply HE in K. apply K, HB. reflexivity.
  - apply HE. intros U. apply HB in U. discriminate.
Qed.

Lemma run_exact todo : forall done lastId u, files = done ++ todo -> shortIds -> lastIs done lastId u ->
  (forall d f' b, files = d ++ f' :: b -> agreeAt d f') -> removeUnlogged rel (rev (filter keep done)) todo lastId u = Ok (filter keep files).
Proof.
  induction todo as [| f todo IH]; intros done lastId u E HS HL HA.
  - cbn [removeUnlogged]. rewrite rev_involutive, E, app_nil_r. reflexivity.
  - pose proof (in_here _ _ _ E) as HF. destruct (regExpMatch rel f) eqn:ER.
    + destruct (proj1 (HR f) ER) as (p & id & H). rewrite (run_rel done f todo lastId u p id H (HS f p id HF H)). cbv zeta.
      pose proof (found_last done f todo lastId u p id E HL H (HA done f todo E)) as HU.
      pose proof (keep_found f p id _ HF H HU) as HKF. rewrite <- (keep_next done f _ HKF).
      apply IH; [rewrite E; apply split_next | exact HS | exact (last_rel done f p id _ H HU) | exact HA].
    + cbn [removeUnlogged]. rewrite ER. rewrite <- (keep_next done f false (keep_other f HF ER)).
      apply IH; [rewrite E; apply split_next | exact HS | exact (last_other done f _ _ ER HL) | exact HA].
Qed.

Lemma run_members todo : forall kept lastId u l, removeUnlogged rel kept todo lastId u = Ok l ->
  (forall x, In x kept -> In x l) /\ (forall x, In x l -> In x kept \/ In x todo).
Proof.
  induction todo as [| f todo IH]; intros kept lastId u l; cbn [removeUnlogged].
  - intros H. injection H as <-. split; intros x Hx; [apply in_rev in Hx; exact Hx | left; apply in_rev; exact Hx].
  - destruct (regExpMatch rel f).
    + destruct (20 <? _)%nat; [discriminate|]. destruct (if strEqb lastId _ then u else _); intros H; destruct (IH _ _ _ _ H) as [H1 H2]; split.
      * exact H1.
      * intros x Hx. destruct (H2 x Hx); cbn [In]; auto.
      * intros x Hx. apply H1. now right.
      * intros x Hx. destruct (H2 x Hx) as [[<- | HX] | HX]; cbn [In]; auto.
    + intros H; destruct (IH _ _ _ _ H) as [H1 H2]; split.
      * intros x Hx. apply H1. now right.
      * intros x Hx. destruct (H2 x Hx) as [[<- | HX] | HX]; cbn [In]; auto.
Qed.
Lemma run_back todo : forall done lastId u, NoDup files -> files = done ++ todo -> shortIds -> lastIs done lastId u ->
  removeUnlogged rel (rev (filter keep done)) todo lastId u = Ok (filter keep files) ->
  forall t1 f' b, todo = t1 ++ f' :: b -> agreeAt (done ++ t1) f'.
Proof.
  induction todo as [| f todo IH]; intros done lastId u ND E HS HL HO t1 f' b ET; [destruct t1; discriminate|].
  pose proof (in_here _ _ _ E) as HF. destruct (regExpMatch rel f) eqn:ER.
  - destruct (proj1 (HR f) ER) as (p & id & H). rewrite (run_rel done f todo lastId u p id H (HS f p id HF H)) in HO. cbv zeta in HO.
    assert (NF : ~ In f done /\ ~ In f todo).
    { rewrite E in ND. apply NoDup_remove_2 in ND. rewrite in_app_iff in ND. tauto. }
    assert (HU : found done (f :: todo) f lastId u = true <-> unlogged files p id).
    { pose proof (run_members _ _ _ _ _ HO) as [M1 M2]. pose proof (keep_rel f p id HF H) as HKR.
      destruct (found done (f :: todo) f lastId u) eqn:EF; (split; [intros HT | intros U]).
      - destruct (in_dec str_dec (p ++ txt "/" ++ id ++ txt "_init") files) as [I | I]; [exact I|]. exfalso.
        destruct (M2 f) as [F | F]; [apply filter_In; split; [exact HF | apply HKR, I] | | exact (proj2 NF F)].
        apply in_rev, filter_In in F. exact (proj1 NF (proj1 F)).
      - reflexivity.
      - discriminate HT.
      - exfalso. specialize (M1 f (or_introl eq_refl)). apply filter_In in M1. exact (proj1 HKR (proj2 M1) U). }
    destruct t1 as [| y t1]; cbn [app] in ET; injection ET as <- ->.
    + rewrite app_nil_r. apply (found_back done f b lastId u E HL). intros p' id' H'. destruct (rel_same tid f p id p' id' H H') as [<- <-]. exact HU.
    + pose proof (keep_found f p id _ HF H HU) as HKF. rewrite <- (keep_next done f _ HKF) in HO.
      rewrite split_next. refine (IH (done ++ [f]) id _ ND _ HS (last_rel done f p id _ H HU) HO t1 f' b eq_refl). rewrite E. apply split_next.
  - cbn [removeUnlogged] in HO. rewrite ER in HO. rewrite <- (keep_next done f false (keep_other f HF ER)) in HO.
    destruct t1 as [| y t1]; cbn [app] in ET; injection ET as <- ->.
    + intros a g m q q' i _ _ _ F. assert (regExpMatch rel f = true) by (apply HR; eauto). congruence.
    + rewrite split_next. refine (IH (done ++ [f]) lastId u ND _ HS (last_other done f _ _ ER HL) HO t1 f' b eq_refl). rewrite E. apply split_next.
Qed.
End Loop.

(** * Ids that are too long *)
Lemma run_ub tid rel : (forall f, regExpMatch rel f = true <-> exists p id, relation tid f p id) -> forall todo kept lastId u,
  (removeUnlogged rel kept todo lastId u = UB <-> exists f p id, In f todo /\ relation tid f p id /\ (20 < length id)%nat) /\
  (forall e, removeUnlogged rel kept todo lastId u <> Err e).
Proof.
  intros HR. induction todo as [| f todo IH]; intros kept lastId u; cbn [removeUnlogged].
  - split; [| discriminate]. split; [discriminate | intros (f & p & id & [] & _)].
  - assert (ST : forall k i v, (forall p id, relation tid f p id -> (length id <= 20)%nat) ->
      (removeUnlogged rel k todo i v = UB <-> exists f0 p id, In f0 (f :: todo) /\ relation tid f0 p id /\ (20 < length id)%nat) /\ (forall e, removeUnlogged rel k todo i v <> Err e)).
    { intros k i v HS. destruct (IH k i v) as [H1 H2]. split; [| exact H2]. rewrite H1. split; intros (f0 & p & id & HI & H & HL).
      - exists f0, p, id. split; [now right|]. auto.
      - destruct HI as [<- | HI]; [specialize (HS p id H); lia|]. eauto 6. }
    destruct (regExpMatch rel f) eqn:ER.
    + destruct (proj1 (HR f) ER) as (p & id & H). rewrite (rel_id tid f p id H). destruct (Nat.ltb_spec 20 (length id)) as [L | L].
      * split; [| discriminate]. split; [intros _ | reflexivity]. exists f, p, id. split; [now left|]. auto.
      * assert (HS : forall p id, relation tid f p id -> (length id <= 20)%nat) by (intros p' id' H'; destruct (rel_same tid f p id p' id' H H') as [<- <-]; exact L).
        destruct (if strEqb lastId id then u else _); apply ST, HS.
    + apply ST. intros p id H. assert (regExpMatch rel f = true) by (apply HR; eauto). congruence.
Qed.

(** * Deciding it *)
Definition keepB (rel : re) (files : list str) (f : str) : bool := negb (regExpMatch rel f && strLstExists files (initName f (leadingDigits (strBase f)))).
Lemma keepB_spec tid rel files : (forall f, regExpMatch rel f = true <-> exists p id, relation tid f p id) ->
  forall f, keepB rel files f = true <-> ~ exists p id, relation tid f p id /\ unlogged files p id.
Proof.
  intros HR f. unfold keepB. rewrite negb_true_iff, <- not_true_iff_false, andb_true_iff, HR, strLstExists_in.
  assert (E : (exists p id, relation tid f p id) /\ In (initName f (leadingDigits (strBase f))) files <-> exists p id, relation tid f p id /\ unlogged files p id); [| tauto].
  split.
  - intros [(p & id & H) HI]. exists p, id. split; [exact H|]. unfold unlogged. rewrite <- (rel_init tid f p id H), <- (rel_id tid f p id H). exact HI.
  - intros (p & id & H & HU). split; [eauto|]. rewrite (rel_id tid f p id H), (rel_init tid f p id H). exact HU.
Qed.
