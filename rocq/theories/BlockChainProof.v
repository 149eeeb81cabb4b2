From Verif Require Import Base Str BlockMapModel BlockMapSpec BlockMapProof2 BlockIncrModel BlockIncrSpec BlockCheckProof BlockIncrProof BlockIncrProof2 RestoreFileModel RestoreFileSpec RestoreFileProof RestoreFileProof2 BlockChainSpec.
Open Scope Z_scope.

(** * The pair condition by positions *)
Definition pairN (m : list item) : Prop := forall i j a b, (i < j)%nat -> nth_error m i = Some a -> nth_error m j = Some b -> iRef a = iRef b -> orderOk a b /\ (j = S i -> nextOk a b).
Lemma nth_split2 {A} (m : list A) i j a b : (i < j)%nat -> nth_error m i = Some a -> nth_error m j = Some b -> exists pre mid post, m = pre ++ a :: mid ++ b :: post /\ length pre = i /\ j = (S i + length mid)%nat.
Proof.
  intros H Ha Hb. destruct (nth_error_split _ _ Ha) as (p & q & -> & Lp). rewrite nth_error_app2 in Hb by lia. replace (j - length p)%nat with (S (j - S i)) in Hb by lia. cbn in Hb. destruct (nth_error_split _ _ Hb) as (p2 & q2 & -> & Lp2).
  exists p, p2, q2. split; [reflexivity|]. split; [exact Lp|lia].
Qed.
Lemma pairN_of m : pairOk m -> pairN m.
Proof.
  intros P i j a b H Ha Hb Hr. destruct (nth_split2 _ _ _ _ _ H Ha Hb) as (p & mid & q & -> & L1 & L2). destruct (P p a mid b q eq_refl Hr) as (P1 & P2). split; [exact P1|]. intros E. apply P2. destruct mid; [reflexivity|cbn in L2; lia].
Qed.
Lemma pairN_to m : pairN m -> pairOk m.
Proof.
  intros P pre a mid b post -> Hr. destruct (P (length pre) (S (length pre) + length mid)%nat a b) as (P1 & P2); auto; [lia|now rewrite nth_error_app2, Nat.sub_diag by lia| |].
  - rewrite nth_error_app2 by lia. replace (S (length pre) + length mid - length pre)%nat with (S (length mid)) by lia. cbn. now rewrite nth_error_app2, Nat.sub_diag by lia.
  - split; [exact P1|]. intros ->. apply P2. cbn. lia.
Qed.

(** * Which new item belongs to which block *)
Definition rank (g : list gent) (i : nat) : nat := length (newBlocks (firstn i g)).
Lemma rank_new g : forall i b nw, nth_error g i = Some (b, None) -> length nw = length (newBlocks g) ->
  nth_error (newBlocks g) (rank g i) = Some b /\ nth_error (fill g nw) i = nth_error nw (rank g i).
Proof.
  unfold rank. induction g as [|(c, [x|]) g IH]; intros i b nw H L; [destruct i; discriminate| |].
  - destruct i as [|i]; [discriminate|]. cbn in H. destruct (IH i b nw H L) as (I1 & I2). cbn. split; [exact I1|exact I2].
  - destruct nw as [|y nw]; [discriminate|]. apply eq_add_S in L. destruct i as [|i]; cbn in H; [injection H as ->; cbn; auto|]. destruct (IH i b nw H L) as (I1 & I2). cbn. split; [exact I1|exact I2].
Qed.
Lemma fill_prior g : forall i b x nw, nth_error g i = Some (b, Some x) -> length nw = length (newBlocks g) -> nth_error (fill g nw) i = Some x.
Proof.
  induction g as [|(c, [y|]) g IH]; intros i b x nw H L; [destruct i; discriminate| |].
  - destruct i as [|i]; cbn in *; [congruence|]. eapply IH; eassumption.
  - destruct nw as [|z nw]; [discriminate|]. apply eq_add_S in L. destruct i as [|i]; cbn in *; [congruence|]. eapply IH; eassumption.
Qed.
Lemma rank_cons c o g i : rank ((c, o) :: g) (S i) = ((match o with None => 1 | Some _ => 0 end) + rank g i)%nat.
Proof. unfold rank. destruct o; reflexivity. Qed.
Lemma rank_lt g : forall i j b, nth_error g i = Some (b, None) -> (i < j)%nat -> (rank g i < rank g j)%nat /\ (j = S i -> rank g j = S (rank g i)).
Proof.
  induction g as [|(c, o) g IH]; intros i j b H Lt; [destruct i; discriminate|]. destruct j as [|j]; [lia|]. rewrite rank_cons. destruct i as [|i].
  - cbn in H. injection H as -> ->. change (rank ((b, None) :: g) 0) with 0%nat. split; [lia|]. intros [= ->]. reflexivity.
  - cbn in H. destruct (IH i j b H ltac:(lia)) as (I1 & I2). rewrite rank_cons. split; [lia|]. intros [= ->]. rewrite I2 by reflexivity. lia.
Qed.
Lemma new_split g : forall p b q, newBlocks g = p ++ b :: q -> exists p' q', map fst g = p' ++ b :: q' /\ (q <> [] -> q' <> []).
Proof.
  induction g as [|(c, [x|]) g IH]; intros p b q H; [destruct p; discriminate| |].
  - destruct (IH p b q H) as (p' & q' & E & N). exists (c :: p'), q'. cbn. now rewrite E.
  - change (newBlocks ((c, None) :: g)) with (c :: newBlocks g) in H. destruct p as [|d p]; cbn in H.
    + injection H as <- H. exists [], (map fst g). split; [reflexivity|]. intros N E. apply N. rewrite <- H. destruct g; [reflexivity|discriminate].
    + injection H as <- H. destruct (IH p b q H) as (p' & q' & E & N). exists (c :: p'), q'. cbn. now rewrite E.
Qed.

Lemma firstn_add {A} (n m : nat) (l : list A) : firstn (n + m) l = firstn n l ++ firstn m (skipn n l).
Proof. revert l. induction n as [|n IH]; intros l; [reflexivity|]. destruct l; [now rewrite skipn_nil, !firstn_nil|]. cbn. now rewrite IH. Qed.
Lemma app_inv_len {A} (a b c d : list A) : a ++ b = c ++ d -> length a = length c -> a = c /\ b = d.
Proof. revert c. induction a as [|x a IH]; intros [|y c] E L; try discriminate; [auto|]. injection E as -> E. destruct (IH c E) as (-> & ->); [now injection L|auto]. Qed.

Lemma nth_ext_err {A} (a b : list A) : (forall i, nth_error a i = nth_error b i) -> a = b.
Proof.
  revert b. induction a as [|x a IH]; intros [|y b] H; [reflexivity|specialize (H 0%nat); discriminate|specialize (H 0%nat); discriminate|]. f_equal; [specialize (H 0%nat); cbn in H; congruence|]. apply IH. intros i. apply (H (S i)).
Qed.

Section Chain.
  Variable hash : list Z -> list Z.
  Variable encB encM : Z -> nat -> list Z -> list Z.
  Variable decB decM : list Z -> res (list Z).
  Variables bs cs : nat.
  Variable repo : Z -> Z -> option (list Z).
  Hypothesis Hbs : (0 < bs)%nat.
  Hypothesis Hbs62 : Z.of_nat bs < 2 ^ 62.
  Hypothesis Hhash : forall b, length (hash b) = cs.
  Hypothesis HdecB : forall r n d, decB (encB r n d) = Ok d.
  Hypothesis HdecM : forall r n d, decM (encM r n d) = Ok d.
  Hypothesis HneB : forall r n d, encB r n d <> [].
  Hypothesis HneM : forall r n d, encM r n d <> [].

  (** Items of new super blocks *)
  Lemma items_nth ref bundle off size sbz l : forall j k x, nth_error (items hash ref bundle off size sbz j l) k = Some x ->
    exists b, nth_error l k = Some b /\ x = mkItem ref sbz bundle off size (j + Z.of_nat k) (hash b).
  Proof.
    induction l as [|b l IH]; intros j k x H; [destruct k; discriminate|]. destruct k as [|k]; cbn in H.
    - injection H as <-. exists b. split; [reflexivity|]. now rewrite Z.add_0_r.
    - destruct (IH _ _ _ H) as (b' & E & ->). exists b'. split; [exact E|]. f_equal. lia.
  Qed.
  Lemma sbItems_nth ref bundle : forall SB off n k x, nth_error (sbItems hash (encB ref) ref bundle off n SB) k = Some x ->
    exists t T j b, nth_error SB t = Some T /\ nth_error T j = Some b /\ nth_error (concat SB) k = Some b /\
      x = mkItem ref (Z.of_nat (length (concat T))) bundle (off + Z.of_nat (length (encs (encB ref) n (firstn t SB)))) (Z.of_nat (length (encOf (encB ref) (n + t) T))) (Z.of_nat j) (hash b).
  Proof.
    induction SB as [|T SB IH]; intros off n k x H; [destruct k; discriminate|]. cbn [sbItems] in H. destruct (Nat.lt_ge_cases k (length T)) as [L|L].
    - rewrite nth_error_app1 in H by (rewrite items_len; exact L). destruct (items_nth _ _ _ _ _ _ _ _ _ H) as (b & E & ->). exists 0%nat, T, k, b. cbn [nth_error firstn encs length concat]. rewrite Nat.add_0_r, Z.add_0_r. repeat split; auto. now rewrite nth_error_app1.
    - rewrite nth_error_app2 in H by (rewrite items_len; exact L). rewrite items_len in H. destruct (IH _ _ _ _ H) as (t & U & j & b & E1 & E2 & E3 & ->). exists (S t), U, j, b. cbn [nth_error firstn encs concat]. repeat split; auto; [now rewrite nth_error_app2|].
      rewrite app_length, Nat2Z.inj_add, Z.add_assoc. replace (n + S t)%nat with (S n + t)%nat by lia. reflexivity.
  Qed.
  Lemma sbItems_pair ref bundle : forall SB off n, Forall (fun T => T <> []) SB -> pairN (sbItems hash (encB ref) ref bundle off n SB) /\
    forall k x, nth_error (sbItems hash (encB ref) ref bundle off n SB) k = Some x -> off <= iOff x /\ (k = 0%nat -> iOff x = off).
  Proof.
    induction SB as [|T SB IH]; intros off n F; [split; [intros i j a b _ H|intros k x H]; [destruct i; discriminate|destruct k; discriminate]|]. cbn [sbItems]. set (e := Z.of_nat (length (encOf (encB ref) n T))).
    pose proof (Forall_inv F) as NT. apply Forall_inv_tail in F. destruct (IH (off + e) (S n) F) as (P & Q).
    assert (He : 0 < e) by (unfold e, encOf; specialize (HneB ref n (concat T)); destruct (encB ref n (concat T)); [congruence|cbn; lia]).
    set (I := items hash ref bundle off e (Z.of_nat (length (concat T))) 0 T). assert (LI : length I = length T) by apply items_len. split.
    - intros i j a b Lt Ha Hb Hr. destruct (Nat.lt_ge_cases j (length I)) as [Lj|Lj].
      + rewrite nth_error_app1 in Ha, Hb by lia. destruct (items_nth _ _ _ _ _ _ _ _ _ Ha) as (ba & _ & ->). destruct (items_nth _ _ _ _ _ _ _ _ _ Hb) as (bb & _ & ->). unfold orderOk, nextOk. cbn. repeat split; auto; lia.
      + rewrite (nth_error_app2 I _ Lj) in Hb. destruct (Q _ _ Hb) as (Q1 & Q2). destruct (Nat.lt_ge_cases i (length I)) as [Li|Li].
        * rewrite nth_error_app1 in Ha by exact Li. destruct (items_nth _ _ _ _ _ _ _ _ _ Ha) as (ba & _ & ->).
          assert (Bb : iBundle b = bundle) by (destruct (sbItems_nth _ _ _ _ _ _ _ Hb) as (t & U & jj & bb & _ & _ & _ & ->); reflexivity). unfold orderOk, nextOk. cbn [iRef iSbs iBundle iOff iSize iBlock iSum]. split; [repeat split; auto; lia|].
          intros ->. specialize (Q2 ltac:(lia)). split; lia.
        * rewrite (nth_error_app2 I _ Li) in Ha. destruct (P (i - length I)%nat (j - length I)%nat a b) as (P1 & P2); auto; [lia|]. split; [exact P1|]. intros ->. apply P2. lia.
    - intros k x H. destruct (Nat.lt_ge_cases k (length I)) as [L|L].
      + rewrite nth_error_app1 in H by exact L. destruct (items_nth _ _ _ _ _ _ _ _ _ H) as (b & _ & ->). cbn. split; [lia|auto].
      + rewrite nth_error_app2 in H by exact L. destruct (Q _ _ H) as (Q1 & Q2). split; [lia|]. intros ->. destruct T; [congruence|]. rewrite LI in L. cbn in L. lia.
  Qed.

  (** The blocks of a super block *)
  Lemma sub_blocks v g SB T : isBlocks bs v (map fst g) -> newBlocks g = concat SB -> In T SB -> isBlocks bs (concat T) T.
  Proof.
    intros (_ & Bk) E HT. split; [reflexivity|]. intros pre b post ET. apply in_split in HT. destruct HT as (S1 & S2 & ->). rewrite concat_app in E. cbn [concat] in E. rewrite ET in E.
    replace (concat S1 ++ (pre ++ b :: post) ++ concat S2) with ((concat S1 ++ pre) ++ b :: (post ++ concat S2)) in E by (rewrite <- !app_assoc; reflexivity).
    destruct (new_split _ _ _ _ E) as (p & q & E2 & N). destruct (Bk _ _ _ E2) as (B1 & B2). split; [exact B1|]. intros NP. apply B2, N. destruct post; [congruence|discriminate].
  Qed.
  Lemma encs_split ref SB t T : forall n, nth_error SB t = Some T -> exists rest, encs (encB ref) n SB = encs (encB ref) n (firstn t SB) ++ encOf (encB ref) (n + t) T ++ rest.
  Proof.
    revert t. induction SB as [|U SB IH]; intros t n H; [destruct t; discriminate|]. destruct t as [|t]; cbn [nth_error] in H.
    - injection H as ->. cbn. rewrite Nat.add_0_r. eauto.
    - destruct (IH t (S n) H) as (rest & E). exists rest. cbn [firstn encs]. rewrite E, <- app_assoc. replace (n + S t)%nat with (S n + t)%nat by lia. reflexivity.
  Qed.
  Lemma slice_sub F off out p q r : sliceIs F off (length out) out -> out = p ++ q ++ r -> sliceIs F (off + length p) (length q) q.
  Proof.
    intros (L & E) Eo. subst out. rewrite !app_length in *. split; [lia|]. replace (off + length p)%nat with (length p + off)%nat by lia. rewrite <- skipn_skipn'.
    assert (E2 : p ++ q ++ r = firstn (length p) (skipn off F) ++ firstn (length q) (skipn (length p) (skipn off F)) ++ firstn (length r) (skipn (length q) (skipn (length p) (skipn off F)))).
    { rewrite E at 1. rewrite !firstn_add. reflexivity. }
    assert (Lx : length (skipn off F) = (length F - off)%nat) by apply skipn_length.
    apply app_inv_len in E2; [|rewrite firstn_length; lia]. destruct E2 as (_ & E2). apply app_inv_len in E2; [|rewrite firstn_length, skipn_length; lia]. apply E2.
  Qed.

  Definition stateOk (r : Z) (v : list Z) (m : list item) : Prop := m <> [] /\ mapOk cs m /\ mapHolds hash decB repo bs m v /\ forall x, In x m -> iRef x <= r.
  Definition priorOk (prior : option (list item)) (r : Z) (v : list Z) : Prop :=
    prior = None \/ exists m v0 r0, prior = Some m /\ stateOk r0 v0 m /\ r0 < r /\ noCollision hash bs v0 v.
  Notation backupRun := (backupRun hash encB encM bs).

  Lemma step prior r bundle off v out n : priorOk prior r v -> v <> [] -> sizesOk bs r bundle off v out -> backupRun prior r bundle off v out n -> (n <> O -> storedAt repo r bundle off out) ->
    (n <> O /\ exists m, mapAt decM bs cs repo (mkLoc r bundle (off + length out - n) n) m /\ stateOk r v m) \/ (n = O /\ exists m, prior = Some m /\ stateOk r v m).
  Proof.
    intros PO Nv (Z1 & Z2 & Z3 & Z4 & Z5) (sbs & chunks & outs & fl & Ec & Ho & Run) St. destruct (run_spec hash (encB r) (encM r) sbs bs r bundle prior Hbs (Z.of_nat off) v) as (f & Hf & HR). destruct (HR chunks outs Ec Ho) as (fl2 & HR2).
    assert (EQ : Ok (out, n) = Ok (bOut f, bMapSize f)) by (rewrite <- (Run (Nat.max fl fl2) ltac:(lia)); apply HR2; lia). injection EQ as -> ->. clear Run HR HR2 Ec Ho chunks outs fl fl2.
    destruct (incr_result hash (encB r) (encM r) sbs bs r bundle prior Hbs (Z.of_nat off) v f Hf) as (g & SB & w & Bk & Ent & New & NeS & Ew & Eo & Es). cbv zeta in Eo, Es. clear Hf. unfold gent in *.
    set (wrote := match SB with [] => (length g <? priorSize prior)%nat | _ => true end) in *. set (e := if wrote then encM r (length SB) w else []) in *. set (nw := sbItems hash (encB r) r bundle (Z.of_nat off) 0 SB) in *.
    assert (Lnw : length nw = length (newBlocks g)) by (unfold nw; rewrite sbItems_len, New; reflexivity). pose proof (fill_len g nw Lnw) as Lm. unfold gent in *. set (m := fill g nw) in *.
    assert (Ng : g <> []) by (intros ->; destruct Bk as (E & _); cbn in E; congruence). assert (Nm : m <> []) by (destruct m; [destruct g; [congruence|discriminate]|discriminate]).
    assert (Lg : length (map fst g) = length g) by apply map_length.
    (* what is stored *)
    assert (Stored : SB <> [] -> exists F, repo r bundle = Some F /\ sliceIs F off (length (bOut f)) (bOut f)).
    { intros NS. apply St. rewrite Es. unfold e, wrote. destruct SB as [|T SB]; [congruence|]. intros E0. apply length_zero_iff_nil in E0. now apply HneM in E0. }
    (* every item *)
    assert (It : forall i x, nth_error m i = Some x -> exists b o, nth_error g i = Some (b, o) /\ match o with Some y => y = x | None => nth_error nw (rank g i) = Some x end).
    { intros i x Hx. destruct (nth_error g i) as [(b, o)|] eqn:Eg; [|apply nth_error_None in Eg; assert (i < length m)%nat by (apply nth_error_Some; congruence); lia]. exists b, o. split; [reflexivity|]. destruct o as [y|].
      - unfold m in Hx. rewrite (fill_prior g i b y nw Eg Lnw) in Hx. congruence.
      - destruct (rank_new g i b nw Eg Lnw) as (_ & R). unfold m in Hx. congruence. }
    assert (Pr : forall i b y, nth_error g i = Some (b, Some y) -> exists pm v0 r0, prior = Some pm /\ nth_error pm i = Some y /\ iSum y = hash b /\ stateOk r0 v0 pm /\ r0 < r /\ noCollision hash bs v0 v).
    { intros i b y Hy. pose proof (Ent _ _ Hy) as E. unfold entOk in E. cbn in E. destruct E as (E1 & E2). destruct PO as [-> |(pm & v0 & r0 & -> & SO & Lt & NC)]; [discriminate|]. cbn in E1. exists pm, v0, r0. auto 7. }
    assert (Nwf : forall k x, nth_error nw k = Some x -> iRef x = r /\ itemOk cs x /\ exists b, nth_error (newBlocks g) k = Some b /\ holds decB repo bs x b /\ iSum x = hash b).
    { intros k x Hx. unfold nw in Hx. destruct (sbItems_nth _ _ _ _ _ _ _ Hx) as (t & T & j & b & E1 & E2 & E3 & ->). cbn [iRef iSbs iBundle iOff iSize iBlock iSum]. assert (NS : SB <> []) by (intros ->; destruct t; discriminate).
      destruct (Stored NS) as (F & EF & SF). destruct (encs_split r SB t T 0 E1) as (rest & EE). rewrite Nat.add_0_l in *. set (ef := encs (encB r) 0 (firstn t SB)) in *. set (et := encOf (encB r) t T) in *.
      assert (Eo2 : bOut f = ef ++ et ++ (rest ++ e)) by (rewrite Eo, EE, <- !app_assoc; reflexivity). pose proof (slice_sub F off (bOut f) ef et (rest ++ e) SF Eo2) as Sl.
      assert (HT : In T SB) by (eapply nth_error_In; exact E1). pose proof (sub_blocks v g SB T Bk New HT) as BT. assert (Het : (0 < length et)%nat) by (unfold et, encOf; specialize (HneB r t (concat T)); destruct (encB r t (concat T)); [congruence|cbn; lia]).
      assert (Lo : length (bOut f) = (length ef + length et + length (rest ++ e))%nat) by (rewrite Eo2, !app_length; lia).
      destruct (blocks_at bs Hbs _ _ _ _ BT E2) as (Q1 & Q2 & _).
      assert (LT : (length (concat T) <= length v)%nat). { apply in_split in HT. destruct HT as (S1 & S2 & ES). assert (LN : forall h, (length (concat (newBlocks h)) <= length (concat (map fst h)))%nat) by (induction h as [|(c, [y|]) h IH]; [cbn; lia|cbn [map concat fst]; rewrite app_length; change (newBlocks ((c, Some y) :: h)) with (newBlocks h); lia|]; change (newBlocks ((c, None) :: h)) with (c :: newBlocks h); cbn [map concat fst]; rewrite !app_length; lia).
        specialize (LN g). destruct Bk as (EB & _). rewrite EB, New, ES, concat_app in LN. cbn [concat] in LN. rewrite !concat_app, !app_length in LN. lia. }
      assert (Lj : (j * bs < length v)%nat) by lia.
      split; [reflexivity|]. split.
      - unfold itemOk. cbn [iRef iSbs iBundle iOff iSize iBlock iSum]. rewrite Hhash. repeat split; try lia; try nia.
      - exists b. split; [rewrite New; exact E3|]. split; [|reflexivity]. exists F, et, (concat T), T. cbn [iRef iSbs iBundle iOff iSize iBlock iSum]. split; [exact EF|]. split; [|split; [apply HdecB|split; [reflexivity|split; [exact BT|now rewrite Nat2Z.id]]]].
        replace (Z.to_nat (Z.of_nat off + Z.of_nat (length ef))) with (off + length ef)%nat by lia. rewrite Nat2Z.id. exact Sl. }
    assert (SO : stateOk r v m).
    { split; [exact Nm|]. split; [|split].
      - split.
        + apply Forall_forall. intros x Hx. apply In_nth_error in Hx. destruct Hx as (i & Hx). destruct (It i x Hx) as (b & [y|] & Eg & Ho).
          * subst y. destruct (Pr i b x Eg) as (pm & v0 & r0 & _ & Hy & _ & (_ & (MI & _) & _) & _). rewrite Forall_forall in MI. apply MI. eapply nth_error_In; exact Hy.
          * apply (Nwf _ _ Ho).
        + apply pairN_to. intros i j a b Lt Ha Hb Hr. destruct (It i a Ha) as (ba & oa & Ega & Hoa). destruct (It j b Hb) as (bb & ob & Egb & Hob). destruct oa as [ya|], ob as [yb|].
          * subst ya yb. destruct (Pr _ _ _ Ega) as (pm & v0 & r0 & Ep & Hya & _ & (_ & (_ & MP) & _) & _). destruct (Pr _ _ _ Egb) as (pm2 & ? & ? & Ep2 & Hyb & _). assert (pm2 = pm) by congruence. subst pm2. apply (pairN_of _ MP i j a b Lt Hya Hyb Hr).
          * subst ya. destruct (Pr _ _ _ Ega) as (pm & v0 & r0 & _ & Hya & _ & (_ & _ & _ & MR) & Lr & _). specialize (MR a (nth_error_In _ _ Hya)). destruct (Nwf _ _ Hob) as (Rb & _). lia.
          * subst yb. destruct (Pr _ _ _ Egb) as (pm & v0 & r0 & _ & Hyb & _ & (_ & _ & _ & MR) & Lr & _). specialize (MR b (nth_error_In _ _ Hyb)). destruct (Nwf _ _ Hoa) as (Ra & _). lia.
          * destruct (rank_lt g i j ba Ega Lt) as (K1 & K2). destruct (sbItems_pair r bundle SB (Z.of_nat off) 0 NeS) as (PN & _). destruct (PN _ _ _ _ K1 Hoa Hob Hr) as (O1 & O2). split; [exact O1|]. intros E. apply O2. now apply K2.
      - exists (map fst g). split; [exact Bk|]. split; [lia|]. intros i x b Hx Hb. destruct (It i x Hx) as (b' & o & Eg & Ho). assert (Eb : b' = b) by (rewrite nth_error_map, Eg in Hb; cbn in Hb; congruence). subst b'. destruct o as [y|].
        + subst y. destruct (Pr i b x Eg) as (pm & v0 & r0 & _ & Hy & Hs & (_ & _ & (bl0 & B0 & L0 & H0) & _) & _ & NC). destruct (nth_error bl0 i) as [b0|] eqn:E0; [|apply nth_error_None in E0; assert (i < length pm)%nat by (apply nth_error_Some; congruence); lia].
          destruct (H0 i x b0 Hy E0) as (H1 & H2). assert (b0 = b) by (apply (NC bl0 (map fst g) i b0 b B0 Bk E0 Hb); congruence). subst b0. auto.
        + destruct (Nwf _ _ Ho) as (_ & _ & b2 & N2 & Hh & Hs). destruct (rank_new g i b nw Eg Lnw) as (N3 & _). assert (b2 = b) by congruence. subst b2. auto.
      - intros x Hx. apply In_nth_error in Hx. destruct Hx as (i & Hx). destruct (It i x Hx) as (b & [y|] & Eg & Ho).
        + subst y. destruct (Pr i b x Eg) as (pm & v0 & r0 & _ & Hy & _ & (_ & _ & _ & MR) & Lr & _). specialize (MR x (nth_error_In _ _ Hy)). lia.
        + destruct (Nwf _ _ Ho) as (Rx & _). lia. }
    rewrite Es. destruct wrote eqn:Wr.
    - left. assert (Le : length e <> 0%nat) by (unfold e; intros E0; apply length_zero_iff_nil in E0; now apply HneM in E0). split; [exact Le|]. exists m. split; [|exact SO].
      destruct St as (F & EF & SF); [now rewrite Es|]. destruct SO as (_ & MO & _). destruct (map_round_trip (Z.of_nat bs) cs ltac:(lia) m MO Nm) as (w2 & Ew2 & Rd). assert (w2 = w) by congruence. subst w2.
      exists F, e, w, []. cbn [lRef lBundle lOff lSize]. split; [exact EF|]. split; [|split; [apply HdecM|rewrite <- (app_nil_r w); apply Rd]].
      replace (off + length (bOut f) - length e)%nat with (off + length (encs (encB r) 0 SB))%nat by (rewrite Eo, app_length; lia). apply (slice_sub F off (bOut f) _ e [] SF). now rewrite app_nil_r.
    - right. split; [reflexivity|]. assert (E0 : SB = []) by (unfold wrote in Wr; destruct SB; [reflexivity|discriminate]). unfold wrote in Wr. rewrite E0 in Wr. apply Nat.ltb_ge in Wr.
      assert (All : forall i b o, nth_error g i = Some (b, o) -> exists y, o = Some y). { intros i b [y|] Hi; [eauto|]. destruct (rank_new g i b nw Hi Lnw) as (N3 & _). rewrite New, E0 in N3. cbn in N3. destruct (rank g i); discriminate. }
      destruct g as [|(b0, o0) g0] eqn:Eg0; [congruence|]. rewrite <- Eg0 in *. destruct (All 0%nat b0 o0) as (y0 & ->); [now rewrite Eg0|]. destruct (Pr 0%nat b0 y0) as (pm & v0 & r0 & Ep & _); [now rewrite Eg0|]. exists pm. split; [exact Ep|].
      assert (Em : pm = m); [|now rewrite Em]. rewrite Ep in Wr. cbn [priorSize] in Wr. apply nth_ext_err. intros i. destruct (nth_error g i) as [(b, o)|] eqn:Eg.
      + destruct (All _ _ _ Eg) as (y & ->). destruct (Pr _ _ _ Eg) as (pm2 & ? & ? & Ep2 & Hy & _). assert (pm2 = pm) by congruence. subst pm2. rewrite Hy. symmetry. unfold m. rewrite <- Eg0. apply (fill_prior g i b y nw Eg Lnw).
      + apply nth_error_None in Eg. rewrite !(proj2 (nth_error_None _ _)) by lia. reflexivity.
  Qed.

  Lemma mapAt_fun l m1 m2 : mapAt decM bs cs repo l m1 -> mapAt decM bs cs repo l m2 -> m1 = m2.
  Proof.
    intros (f1 & d1 & b1 & t1 & A1 & (_ & A2) & A3 & A4) (f2 & d2 & b2 & t2 & B1 & (_ & B2) & B3 & B4). assert (f2 = f1) by congruence. subst. assert (b2 = b1) by congruence. subst. congruence.
  Qed.
  Theorem history_ok r v l : history hash encB encM decM bs cs repo r v l -> lSize l <> O /\ exists m, mapAt decM bs cs repo l m /\ stateOk r v m.
  Proof.
    intros H. induction H as [r bundle off v out n Nv Sz Run St|r v l r' bundle off v' out m H IH Lr Nv NC MA Sz Run|r v l r' bundle off v' out n m H IH Lr Nv NC MA Sz Run Nn St].
    - destruct (step None r bundle off v out n (or_introl eq_refl) Nv Sz Run (fun _ => St)) as [(Nn & M)|(_ & m & E & _)]; [|discriminate]. split; [exact Nn|exact M].
    - destruct IH as (Nl & m0 & MA0 & SO). assert (m0 = m) by (eapply mapAt_fun; eassumption). subst m0.
      destruct (step (Some m) r' bundle off v' out 0 ltac:(right; exists m, v, r; auto) Nv Sz Run ltac:(congruence)) as [(Nn & _)|(_ & m1 & E & SO')]; [congruence|]. injection E as <-. split; [exact Nl|]. exists m. auto.
    - destruct IH as (Nl & m0 & MA0 & SO). assert (m0 = m) by (eapply mapAt_fun; eassumption). subst m0.
      destruct (step (Some m) r' bundle off v' out n ltac:(right; exists m, v, r; auto) Nv Sz Run (fun _ => St)) as [(_ & M)|(E & _)]; [|congruence]. split; [exact Nn|exact M].
  Qed.
End Chain.
