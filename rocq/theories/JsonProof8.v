From Verif Require Import Base Str ConvertModel NumModel NumSpec NumProof JsonModel JsonSpec JsonProof JsonProof2 JsonProof3 JsonProof4 JsonProof5.
From Coq Require Import Sorting.Sorted.
Open Scope Z_scope.

(** * jsonReadKeyExpect() on an object with ascending keys *)

Lemma cmp_lt key next : strncmpKey key next = Lt -> slt key next.
Proof.
  unfold slt. revert key. induction next as [|y next IH]; intros [|x key]; cbn; try discriminate; [reflexivity|].
  destruct (x ?= y); auto; discriminate.
Qed.
Lemma cmp_gt key next : strncmpKey key next = Gt -> slt next key.
Proof.
  unfold slt. revert key. induction next as [|y next IH]; intros [|x key]; cbn; try discriminate.
  rewrite (Z.compare_antisym x y). destruct (x ?= y); cbn; auto; discriminate.
Qed.
Lemma cmp_eq key next : strncmpKey key next = Eq -> exists t, key = next ++ t.
Proof.
  revert key. induction next as [|y next IH]; intros [|x key]; cbn; try discriminate; [intros _; now exists []|intros _; now exists (x :: key)|].
  destruct (Z.compare_spec x y) as [-> | |]; try discriminate. intros H. destruct (IH key H) as [t ->]. now exists t.
Qed.
Lemma cmp_refl k : strncmpKey k k = Eq.
Proof. induction k as [|x k IH]; cbn; [reflexivity|]. now rewrite Z.compare_refl. Qed.

(** The reader stands before the members [l] of an object. *)
Definition objPos (l : list (str * jvar)) (st : jread) (rest : str) : Prop :=
  exists first r,
    match l with
    | [] => jcomplete st = false /\ jkey st = false /\ jstack st = (true, first) :: r /\ exists w, wsp w /\ jtext st = w ++ 125 :: rest
    | _ => exists s, jmembers false l s /\ elemPos true first r st (s ++ 125 :: rest)
    end.
Lemma objPos_after l r s rest w' tail : wsp w' ->
  (l = [] /\ tail = 125 :: rest \/ jmembers false l s /\ tail = 44 :: s ++ 125 :: rest) -> objPos l (endState true r true (w' ++ tail)) rest.
Proof.
  intros Hw [[-> ->]|[Hm ->]].
  - exists true, r. cbn. eauto 10.
  - exists true, r. destruct l as [|p l]; [inversion Hm|]. exists s. split; [exact Hm|]. now apply elemPos_after.
Qed.
Lemma objPos_cons k v l st rest : objPos ((k, v) :: l) st rest ->
  exists first r w w1 w2 s w' tail,
    jkeyText k /\ jgram false v s /\ wsp w /\ wsp w1 /\ wsp w2 /\ wsp w' /\ follow (w' ++ tail) /\
    elemPos true first r st (w ++ (34 :: k ++ [34]) ++ w1 ++ 58 :: w2 ++ s ++ w' ++ tail) /\
    objPos l (endState true r true (w' ++ tail)) rest.
Proof.
  intros (first & r & s & Hm & Hp). inversion Hm; subst.
  - exists first, r, w, w1, w2, s0, w', (125 :: rest). split; [assumption|]. do 5 (split; [assumption|]). split; [now apply follow_ws|]. split.
    + match type of Hp with elemPos _ _ _ _ ?x => match goal with |- elemPos _ _ _ _ ?y => replace y with x; [exact Hp|] end end.
      rewrite <- !app_assoc. cbn [app]. rewrite <- !app_assoc. reflexivity.
    + apply (objPos_after [] r [] rest w'); [assumption|now left].
  - exists first, r, w, w1, w2, s0, w', (44 :: t ++ 125 :: rest). split; [assumption|]. do 5 (split; [assumption|]). split; [now apply follow_ws|]. split.
    + match type of Hp with elemPos _ _ _ _ ?x => match goal with |- elemPos _ _ _ _ ?y => replace y with x; [exact Hp|] end end.
      rewrite <- !app_assoc. cbn [app]. rewrite <- !app_assoc. reflexivity.
    + apply (objPos_after l r t rest w'); [assumption|right; auto].
Qed.
(** White space may be dropped, and the reader may be put back before a key. *)
Lemma objPos_ws l st rest : objPos l st rest -> objPos l (mkJread (jws (jtext st)) (jstack st) false false) rest.
Proof.
  intros (first & r & H). exists first, r. destruct l as [|p l].
  - destruct H as (Hc & Hk & Es & w & Hw & Et). cbn. split; [reflexivity|]. split; [reflexivity|]. split; [exact Es|]. exists []. split; [constructor|].
    rewrite Et, (jws_app _ _ Hw). reflexivity.
  - destruct H as (s & Hm & Hc & Hk & Es & Ht). destruct first.
    + exists s. split; [exact Hm|]. unfold elemPos. cbn. split; [reflexivity|]. split; [reflexivity|]. split; [exact Es|]. destruct Ht as (w & Hw & Et).
      exists []. split; [constructor|]. rewrite Et, (jws_app _ _ Hw). reflexivity.
    + assert (Hs : exists w x, s = w ++ 34 :: x /\ wsp w /\ jmembers false (p :: l) (34 :: x)).
      { inversion Hm; subst.
        - exists w. eexists. split; [reflexivity|]. split; [assumption|]. apply (m_one false k v s0 [] w1 w2 w'); try assumption. constructor.
        - exists w. eexists. split; [reflexivity|]. split; [assumption|]. apply (m_more false k v s0 [] w1 w2 w'); try assumption. constructor. }
      destruct Hs as (w & x & -> & Hw & Hm'). exists (34 :: x). split; [exact Hm'|]. unfold elemPos. cbn. split; [reflexivity|]. split; [reflexivity|].
      split; [exact Es|]. rewrite Ht, <- app_assoc, (jws_app _ _ Hw). reflexivity.
Qed.

Lemma kvGet_none {A} (l : list (str * A)) k : (forall p, In p l -> slt k (fst p)) -> kvGet l k = None.
Proof.
  induction l as [|[k' v] l IH]; intros H; cbn; [reflexivity|]. destruct (strEqb k' k) eqn:E.
  - apply strEqb_eq in E. subst. destruct (slt_irrefl k (H (k, v) ltac:(now left))).
  - apply IH. intros p Hp. apply H. now right.
Qed.
Lemma kvGet_skip {A} (l : list (str * A)) k v key : slt k key -> kvGet ((k, v) :: l) key = kvGet l key.
Proof. intros H. cbn. destruct (strEqb k key) eqn:E; [apply strEqb_eq in E; subst; destruct (slt_irrefl _ H)|reflexivity]. Qed.

Lemma keyExpect_loop key l : forall n st rest, StronglySorted slt (map fst l) ->
  Forall (fun p => forall t, key = fst p ++ t -> t = []) l -> objPos l st rest -> (length l < n)%nat ->
  exists l2 st', incl l2 l /\ StronglySorted slt (map fst l2) /\ (forall k', slt key k' -> kvGet l2 k' = kvGet l k') /\
    ((kvGet l key = None /\ keyExpectLoop n key st = Ok (false, st') /\ objPos l2 st' rest) \/
     (exists v s tail, kvGet l key = Some v /\ keyExpectLoop n key st = Ok (true, st') /\ jgram false v s /\ valuePos st' (s ++ tail) /\ follow tail /\ objPos l2 (after st' tail) rest)).
Proof.
  induction l as [|[k v] l IH]; intros n st rest Hs Hp Ho Hn; (destruct n as [|n]; [lia|]); cbn [keyExpectLoop].
  - destruct Ho as (first & r & Hc & Hk & Es & w & Hw & Et).
    assert (E : st = endState true r first (w ++ 125 :: rest)) by (destruct st; cbn in *; subst; reflexivity).
    rewrite E, (end_type true first r w rest Hw). cbn [bind]. exists [], (endState true r first (125 :: rest)).
    split; [intros x []|]. split; [constructor|]. split; [reflexivity|]. left. split; [reflexivity|]. split; [reflexivity|].
    exists first, r. cbn. split; [reflexivity|]. split; [reflexivity|]. split; [reflexivity|]. exists []. split; [constructor|reflexivity].
  - destruct (objPos_cons _ _ _ _ _ Ho) as (first & r & w & w1 & w2 & s & w' & tail & Hk & Hg & Hw & Hw1 & Hw2 & Hw' & Hf & He & Hl).
    destruct (member_key _ _ _ _ _ _ _ Hk Hw Hw1 He) as (st1 & E1 & E2 & Et & Es & Ek & Ec).
    rewrite E1. cbn [bind]. rewrite E2. cbn [bind]. unfold jsonReadKeyZN. rewrite Et. cbn [jnext bind]. rewrite (key_body _ _ Hk). cbn [bind].
    rewrite (colon_ok _ _ Hw1). cbn [bind]. inversion Hs as [|? ? Hs' Hall]; subst. inversion Hp as [|? ? Hp0 Hp']; subst. cbn [fst] in Hp0.
    destruct (strncmpKey key k) eqn:Ecmp.
    + destruct (cmp_eq _ _ Ecmp) as [t Etk]. rewrite (Hp0 t Etk), app_nil_r in Etk. subst k.
      exists l, (setText st1 (w2 ++ s ++ w' ++ tail)). split; [intros x; now right|]. split; [exact Hs'|].
      split; [intros k' Hk'; symmetry; now apply kvGet_skip|]. right. exists v, s, (w' ++ tail).
      split; [cbn; now rewrite (strEqb_refl key)|]. split; [reflexivity|]. split; [exact Hg|]. split; [|split; [exact Hf|]].
      * unfold valuePos. cbn. rewrite Es. split; [exact Ec|]. split; [exact Ek|]. exists w2. split; [exact Hw2|reflexivity].
      * replace (after (setText st1 (w2 ++ s ++ w' ++ tail)) (w' ++ tail)) with (endState true r true (w' ++ tail)); [exact Hl|].
        unfold after, endState, setText. cbn. rewrite Es. reflexivity.
    + apply cmp_lt in Ecmp. eexists ((k, v) :: l), _. split; [apply incl_refl|]. split; [exact Hs|]. split; [reflexivity|]. left.
      split; [|split; [reflexivity|]].
      * apply kvGet_none. intros p [<-|Hi]; [exact Ecmp|]. rewrite Forall_forall in Hall. eapply slt_trans; [exact Ecmp|]. apply Hall. now apply in_map.
      * change (jcomplete (setText st1 (w2 ++ s ++ w' ++ tail))) with (jcomplete st1). rewrite Ec.
        change (jtext (jsonReadConsumeWhiteSpace st)) with (jws (jtext st)). change (jstack (jsonReadConsumeWhiteSpace st)) with (jstack st). now apply objPos_ws.
    + apply cmp_gt in Ecmp. unfold jsonReadSkip.
      rewrite (proj1 skip_grammar v s Hg _ _ (w' ++ tail)); [|cbn [jtext setText]; rewrite !app_length; lia| |exact Hf].
      2:{ unfold valuePos, setText. cbn. rewrite Es. split; [exact Ec|]. split; [exact Ek|]. exists w2. split; [exact Hw2|reflexivity]. }
      cbn [bind]. replace (after (setText st1 (w2 ++ s ++ w' ++ tail)) (w' ++ tail)) with (endState true r true (w' ++ tail))
        by (unfold after, endState, setText; cbn; rewrite Es; reflexivity).
      cbn [length] in Hn. destruct (IH n (endState true r true (w' ++ tail)) rest Hs' Hp' Hl ltac:(lia)) as (l2 & st' & H1 & H2 & H3 & H4).
      exists l2, st'. split; [intros x Hx; right; now apply H1|]. split; [exact H2|].
      split. { intros k' Hk'. rewrite kvGet_skip by (eapply slt_trans; [exact Ecmp|exact Hk']). now apply H3. }
      rewrite kvGet_skip by exact Ecmp. exact H4.
Qed.

Lemma members_len l s : jmembers false l s -> (length l < length s)%nat.
Proof.
  induction 1; rewrite !app_length; cbn [length]; rewrite !app_length; cbn [length]; try lia.
Qed.
Lemma objPos_len l st rest : objPos l st rest -> (length l < length (jtext st))%nat.
Proof.
  intros (first & r & H). destruct l as [|p l].
  - destruct H as (_ & _ & _ & w & _ & ->). rewrite app_length. cbn. lia.
  - destruct H as (s & Hm & _ & _ & _ & Ht). apply members_len in Hm. destruct first; [destruct Ht as (w & _ & ->)|rewrite Ht];
      rewrite !app_length; cbn [length]; rewrite ?app_length; cbn [length] in *; lia.
Qed.
Lemma readField_ok key l st rest : StronglySorted slt (map fst l) -> Forall (fun p => forall t, key = fst p ++ t -> t = []) l -> objPos l st rest ->
  exists l2 st', incl l2 l /\ StronglySorted slt (map fst l2) /\ (forall k', slt key k' -> kvGet l2 k' = kvGet l k') /\
    readField st key = Ok (kvGet l key, st') /\ objPos l2 st' rest.
Proof.
  intros Hs Hp Ho. unfold readField, jsonReadKeyExpect. cbv zeta.
  assert (Ho' : objPos l (jsonReadConsumeWhiteSpace st) rest).
  { unfold jsonReadConsumeWhiteSpace, setText. pose proof (objPos_ws _ _ _ Ho) as K. destruct Ho as (first & r & H). destruct l.
    - destruct H as (-> & -> & _). exact K.
    - destruct H as (s & _ & -> & -> & _). exact K. }
  pose proof (objPos_len _ _ _ Ho') as L.
  destruct (keyExpect_loop key l (loopFuel (jsonReadConsumeWhiteSpace st)) _ rest Hs Hp Ho') as (l2 & st' & H1 & H2 & H3 & H4); [unfold loopFuel; lia|].
  destruct H4 as [(E1 & E2 & E3)|(v & s & tail & E1 & E2 & Hg & Hv & Hf & E3)].
  - exists l2, st'. rewrite E2, E1. cbn [bind]. auto.
  - exists l2, (after st' tail). rewrite E2, E1. cbn [bind]. unfold jsonReadVar.
    rewrite (proj1 (read_grammar false) v s Hg _ _ tail); [cbn [bind]; auto| |exact Hv|exact Hf].
    assert (length (s ++ tail) <= length (jtext st'))%nat; [|rewrite app_length in *; lia].
    destruct Hv as [_ Hv]. destruct (jstack st') as [|[[] []] ?];
      [destruct Hv as (_ & w & _ & ->)|destruct Hv as (_ & w & _ & ->)|destruct Hv as (_ & w & _ & ->)|destruct Hv as (_ & w & w0 & _ & _ & ->)|destruct Hv as (_ & w & _ & ->)];
      rewrite ?app_length; cbn [length]; rewrite ?app_length; lia.
Qed.
Theorem readFields_ok keys : forall l st rest, StronglySorted slt (map fst l) -> StronglySorted slt keys ->
  Forall (fun key => Forall (fun p => forall t, key = fst p ++ t -> t = []) l) keys -> objPos l st rest ->
  exists st', readFields st keys = Ok (map (kvGet l) keys, st').
Proof.
  induction keys as [|k keys IH]; intros l st rest Hs Hk Hp Ho; [eexists; reflexivity|].
  inversion Hk as [|? ? Hk' Hall]; subst. inversion Hp as [|? ? Hp0 Hp']; subst. cbn [readFields map].
  destruct (readField_ok k l st rest Hs Hp0 Ho) as (l2 & st1 & H1 & H2 & H3 & -> & Ho1). cbn [bind].
  destruct (IH l2 st1 rest H2 Hk') as (st' & ->).
  - eapply Forall_impl; [|exact Hp']. intros key. cbn. rewrite !Forall_forall. intros H p Hi. apply H, H1, Hi.
  - exact Ho1.
  - cbn [bind]. exists st'. do 3 f_equal. apply map_ext_in. intros k' Hi. apply H3. rewrite Forall_forall in Hall. now apply Hall.
Qed.
Lemma begin_objPos v l s rest : v = JObj l -> jgram false v s ->
  exists st, jsonReadObjectBegin (jsonReadNew (s ++ rest)) = Ok st /\ objPos l st rest.
Proof.
  intros Ev Hg. assert (K : exists s', s = 123 :: s' /\ forall st0, jstack st0 = [] -> objPos l (endState true [] false (s' ++ rest)) rest).
  { subst v. inversion Hg; subst.
    - exists (w ++ [125]). split; [reflexivity|]. intros _ _. exists false, []. cbn. split; [reflexivity|]. split; [reflexivity|]. split; [reflexivity|].
      exists w. split; [assumption|]. now rewrite <- app_assoc.
    - exists (s0 ++ [125]). split; [reflexivity|]. intros _ _. exists false, []. destruct l; [match goal with H : jmembers _ [] _ |- _ => inversion H end|].
      exists s0. split; [assumption|]. unfold elemPos. cbn. rewrite <- app_assoc. auto. }
  destruct K as (s' & -> & K). eexists. split; [|apply (K (jsonReadNew [])); reflexivity].
  unfold jsonReadObjectBegin. cbn. reflexivity.
Qed.
