(** WAL ranges. *)
From Coq Require Import String Sorting.Sorted Sorting.Permutation.
From Verif Require Import Base Str ConvertModel NumModel LsnModel LsnProof RegNameModel VerifyModel VerifySpec.
Open Scope Z_scope.
Open Scope list_scope.

Lemma lastOf_app {A} (l : list A) a : lastOf (l ++ [a]) = Some a.
Proof. induction l as [| x l IH]; [reflexivity|]. cbn [app lastOf]. destruct (l ++ [a]) eqn:E; [destruct l; discriminate|]. exact IH. Qed.
Lemma lastOf_some {A} (l : list A) a : lastOf l = Some a -> exists q, l = q ++ [a].
Proof.
  induction l as [| x l IH]; [discriminate|]. cbn [lastOf]. destruct l as [| y l]; [intros H; injection H as <-; exists []; reflexivity|]. intros H. destruct (IH H) as (q & E). exists (x :: q). cbn [app]. now rewrite <- E.
Qed.
Lemma lastOf_none {A} (l : list A) : lastOf l = None -> l = [].
Proof. destruct l as [| x l]; [reflexivity|]. intros H. exfalso. revert x H. induction l as [| y l IH]; intros x H; [discriminate|]. exact (IH y H). Qed.
Lemma setLast_app {A} (f : A -> A) l a : setLast f (l ++ [a]) = l ++ [f a].
Proof. induction l as [| x l IH]; [reflexivity|]. cbn [app setLast]. destruct (l ++ [a]) eqn:E; [destruct l; discriminate|]. now rewrite IH. Qed.

(** * Runs *)
Lemma runs_none size bad : isRuns size bad [] [].
Proof. exists []. split; [reflexivity|]. split; [constructor|]. split; [intros r a x y b []|]. intros A r x y s B E. destruct A; discriminate. Qed.
Lemma split_two {A} (r a b : list A) x y s : r ++ [s] = a ++ x :: y :: b -> (b = [] /\ s = y /\ r = a ++ [x]) \/ (exists b', b = b' ++ [s] /\ r = a ++ x :: y :: b').
Proof.
  intros E. destruct b as [| c b] using rev_ind.
  - left. change (a ++ [x; y]) with (a ++ ([x] ++ [y])) in E. rewrite app_assoc in E. apply app_inj_tail in E. destruct E as [E1 E2]. auto.
  - right. clear IHb. rewrite app_comm_cons, app_comm_cons, app_assoc in E. apply app_inj_tail in E. destruct E as [E1 ->]. exists b. auto.
Qed.
Lemma Forall2_snoc_inv {A B} (P : A -> B -> Prop) l y k : Forall2 P l (k ++ [y]) -> exists l' x, l = l' ++ [x] /\ Forall2 P l' k /\ P x y.
Proof.
  intros H. apply Forall2_app_inv_r in H. destruct H as (l1 & l2 & H1 & H2 & ->). inversion H2 as [| x ? l3 ? Hx H3]; subst. inversion H3; subst. eauto.
Qed.
Lemma runs_extend size bad segs R x s : isRuns size bad segs (R ++ [x]) -> follows size (vrStop x) s -> (forall r b, bad r b -> bad (r ++ [s]) b) ->
  isRuns size bad (segs ++ [s]) (R ++ [mkVrange (vrStart x) s (vrBad x)]).
Proof.
  intros (rs & EC & HF & HI & HB) HS HX. apply Forall2_snoc_inv in HF. destruct HF as (rs' & r & -> & HF & HH & (q & EQ) & HY). exists (rs' ++ [r ++ [s]]). rewrite concat_app in *. cbn [concat] in *. rewrite app_nil_r in *.
  split; [rewrite <- EC, app_assoc; reflexivity|]. split; [|split].
  - apply Forall2_app; [exact HF|]. constructor; [| constructor]. cbn [vrStart vrStop vrBad]. split; [destruct r; [discriminate | exact HH] | split; eauto].
  - intros r0 a u v b Hr E. apply in_app_or in Hr. destruct Hr as [Hr | [<- | []]]; [exact (HI r0 a u v b ltac:(apply in_or_app; now left) E)|].
    apply split_two in E. destruct E as [(-> & <- & E) | (b' & -> & E)]; [| exact (HI r a u v b' ltac:(apply in_or_app; right; now left) E)].
    rewrite EQ in E. apply app_inj_tail in E. destruct E as [_ <-]. exact HS.
  - intros A r0 u v t B E. destruct B as [| c B] using rev_ind.
    + change (A ++ [r0 ++ [u]; v :: t]) with (A ++ [r0 ++ [u]] ++ [v :: t]) in E. rewrite app_assoc in E. apply app_inj_tail in E. destruct E as [E1 E2].
      destruct r as [| r1 r]; [destruct q; discriminate EQ|]. cbn [app] in E2. injection E2 as <- E2. apply (HB A r0 u r1 r []). rewrite E1, <- app_assoc. reflexivity.
    + clear IHB. rewrite app_comm_cons, app_comm_cons, app_assoc in E. apply app_inj_tail in E. destruct E as [E1 _]. apply (HB A r0 u v t (B ++ [r])). rewrite E1, <- app_assoc. reflexivity.
Qed.
Lemma runs_new size bad segs R s : isRuns size bad segs R -> (forall x, lastOf R = Some x -> ~ follows size (vrStop x) s) -> bad [s] [] ->
  isRuns size bad (segs ++ [s]) (R ++ [mkVrange s s []]).
Proof.
  intros (rs & EC & HF & HI & HB) HS HX. exists (rs ++ [[s]]). rewrite concat_app. cbn [concat app]. split; [now rewrite EC|]. split; [|split].
  - apply Forall2_app; [exact HF|]. constructor; [| constructor]. split; [reflexivity | split; [exists []; reflexivity | exact HX]].
  - intros r a u v b Hr E. apply in_app_or in Hr. destruct Hr as [Hr | [<- | []]]; [exact (HI r a u v b Hr E)|]. destruct a as [| ? [|]]; discriminate.
  - intros A r u v t B E. destruct B as [| c B] using rev_ind.
    + change (A ++ [r ++ [u]; v :: t]) with (A ++ [r ++ [u]] ++ [v :: t]) in E. rewrite app_assoc in E. apply app_inj_tail in E. destruct E as [E1 E2]. injection E2 as <- <-.
      rewrite E1 in HF. apply Forall2_app_inv_l in HF. destruct HF as (R1 & R2 & _ & H2 & ER). inversion H2 as [| ? x ? ? (_ & (q & EQ) & _) H3]; subst. inversion H3; subst.
      apply app_inj_tail in EQ. destruct EQ as [_ ->]. apply HS, lastOf_app.
    + clear IHB. rewrite app_comm_cons, app_comm_cons, app_assoc in E. apply app_inj_tail in E. destruct E as [E1 _]. exact (HB A r u v t B E1).
Qed.

(** * The loop over files *)
Lemma once_not l f g a b : l = a ++ f :: b -> In g (a ++ b) -> firstn 24 g = firstn 24 f -> once l f = false.
Proof.
  intros -> Hg E. unfold once. apply Nat.eqb_neq. rewrite filter_app. cbn [filter]. rewrite strEqb_refl. rewrite app_length. cbn [length].
  assert (1 <= length (filter (fun h => strEqb (firstn 24 h) (firstn 24 f)) (a ++ b)))%nat.
  { destruct (filter (fun h => strEqb (firstn 24 h) (firstn 24 f)) (a ++ b)) eqn:F; [| cbn [length]; lia]. exfalso. assert (X : In g []) by (rewrite <- F; apply filter_In; split; [exact Hg | rewrite E; apply strEqb_refl]). exact X. }
  rewrite filter_app, app_length in H. lia.
Qed.
Lemma once_yes l f a b : l = a ++ f :: b -> (forall g, In g (a ++ b) -> firstn 24 g <> firstn 24 f) -> once l f = true.
Proof.
  intros -> H. unfold once. apply Nat.eqb_eq. rewrite filter_app. cbn [filter]. rewrite strEqb_refl.
  assert (Z : forall l, (forall g, In g l -> firstn 24 g <> firstn 24 f) -> filter (fun h => strEqb (firstn 24 h) (firstn 24 f)) l = []).
  { clear. induction l as [| x l IH]; intros H; [reflexivity|]. cbn [filter]. destruct (strEqb_spec (firstn 24 x) (firstn 24 f)) as [E | _]; [elim (H x (or_introl eq_refl) E)|]. apply IH. intros g Hg. apply H. now right. }
  rewrite (Z a), (Z b); [reflexivity | intros g Hg; apply H, in_or_app; now right | intros g Hg; apply H, in_or_app; now left].
Qed.
Definition segsSorted (l : list str) : Prop := StronglySorted sle (map segOf l).
Lemma segs_le l a f b : segsSorted l -> l = a ++ f :: b -> (forall g, In g a -> sle (segOf g) (segOf f)) /\ forall g, In g b -> sle (segOf f) (segOf g).
Proof.
  intros H ->. unfold segsSorted in H. rewrite map_app in H. cbn [map] in H. induction a as [| x a IH]; cbn [app map] in H.
  - inversion H as [| ? ? H1 H2]; subst. split; [intros g []|]. intros g Hg. rewrite Forall_forall in H2. apply H2, in_map, Hg.
  - inversion H as [| ? ? H1 H2]; subst. destruct (IH H1) as [I1 I2]. split; [| exact I2]. intros g [<- | Hg]; [| exact (I1 g Hg)]. rewrite Forall_forall in H2. apply H2, in_or_app. right. now left.
Qed.
Lemma loop_spec size all : segsSorted all -> forall files pre skip ranges cur kept errors R K E, all = pre ++ files ->
  (forall g h, In g pre -> In h files -> segOf g = segOf h -> skip = Some (segOf h)) -> (forall s, skip = Some s -> exists g, In g pre /\ segOf g = s) ->
  rangeLoop size skip files ranges cur kept errors = Ok (R, K, E) ->
  K = kept ++ filter (once all) files /\
  (exists ds, NoDup ds /\ E = errors + Z.of_nat (length ds) /\ forall s, In s ds <-> skip <> Some s /\ exists f, In f files /\ segOf f = s /\ once all f = false) /\
  (forall bad segs, (forall f, In f files -> once all f = true -> bad [segOf f] [] /\ forall r b, bad r b -> bad (r ++ [segOf f]) b) -> isRuns size bad segs ranges -> (cur = false -> forall f x, In f files -> lastOf ranges = Some x -> ~ follows size (vrStop x) (segOf f)) ->
     isRuns size bad (segs ++ map segOf (filter (once all) files)) R).
Proof.
  intros HS. induction files as [| f r IH]; intros pre skip ranges cur kept errors R K E EA HP HK; cbn [rangeLoop].
  - intros H. injection H as <- <- <-. split; [now rewrite app_nil_r|]. split; [exists []; split; [constructor|]; split; [cbn [length]; lia|]; intros s; split; [intros [] | intros (_ & f & [] & _)]|].
    intros bad segs _ HR _. cbn [filter map]. now rewrite app_nil_r.
  - pose proof (segs_le all pre f r HS EA) as [LP LR].
    assert (EA2 : all = (pre ++ [f]) ++ r) by (rewrite <- app_assoc; exact EA).
    destruct (match skip with Some s => strEqb s (segOf f) | None => false end) eqn:ESK.
    + destruct skip as [s |]; [| discriminate]. apply strEqb_eq in ESK. subst s. destruct (HK _ eq_refl) as (g & Hg & EG).
      assert (OF : once all f = false) by (apply (once_not all f g pre r EA); [apply in_or_app; now left | exact EG]).
      intros H. destruct (IH (pre ++ [f]) (Some (segOf f)) ranges cur kept errors R K E EA2) as (I1 & (ds & D1 & D2 & D3) & I3); auto.
      { intros g' h Hg' Hh E1. apply in_app_or in Hg'. destruct Hg' as [Hg' | [<- | []]]; [exact (HP g' h Hg' (or_intror Hh) E1) | now rewrite E1]. }
      { intros s Hs. injection Hs as <-. exists f. split; [apply in_or_app; right; now left | reflexivity]. }
      cbn [filter]. rewrite OF. split; [exact I1|]. split.
      * exists ds. split; [exact D1|]. split; [exact D2|]. intros s. rewrite D3. split; [intros (A & x & B & C); split; [exact A | exists x; split; [now right | exact C]]|].
        intros (A & x & [<- | B] & C & D); [elim A; now rewrite C|]. eauto 10.
      * intros bad segs HX HR HC. apply I3; [intros x Hx; apply HX; now right | exact HR |]. intros C x y Hx. exact (HC C x y (or_intror Hx)).
    + assert (NP : forall g, In g pre -> segOf g <> segOf f).
      { intros g Hg EG. rewrite (HP g f Hg (or_introl eq_refl) EG) in ESK. now rewrite strEqb_refl in ESK. }
      destruct (match r with g :: _ => strEqb (segOf f) (segOf g) | [] => false end) eqn:END.
      * destruct r as [| g r]; [discriminate|]. apply strEqb_eq in END.
        assert (OF : once all f = false) by (apply (once_not all f g pre (g :: r) EA); [apply in_or_app; right; now left | now symmetry]).
        intros H. destruct (IH (pre ++ [f]) (Some (segOf f)) ranges cur kept (errors + 1) R K E EA2) as (I1 & (ds & D1 & D2 & D3) & I3); auto.
        { intros g' h Hg' Hh E1. apply in_app_or in Hg'. destruct Hg' as [Hg' | [<- | []]]; [| now rewrite E1]. exfalso.
          pose proof (LP g' Hg') as L1. pose proof (LR h Hh) as L2. rewrite <- E1 in L2. exact (NP g' Hg' (sle_antisym _ _ L1 L2)). }
        { intros s Hs. injection Hs as <-. exists f. split; [apply in_or_app; right; now left | reflexivity]. }
        cbn [filter] in *. rewrite OF. split; [exact I1|]. split.
        -- exists (segOf f :: ds). split; [constructor; [intros F; apply D3 in F; destruct F as [F _]; now elim F | exact D1]|]. split; [cbn [length]; lia|].
           intros s. cbn [In]. rewrite D3. split.
           ++ intros [<- | (A & x & B & C & D)].
              ** split; [intros ->; now rewrite strEqb_refl in ESK | exists f; auto].
              ** split; [| exists x; auto]. intros ->. destruct (HK s eq_refl) as (g0 & Hg0 & EG0). apply A. f_equal.
                 apply sle_antisym; [rewrite <- C; exact (LR x B) | rewrite <- EG0; exact (LP g0 Hg0)].
           ++ intros (A & x & [<- | B] & C & D); [now left|]. destruct (str_dec (segOf f) s) as [EQ | NE]; [now left|]. right. split; [congruence|]. eauto.
        -- intros bad segs HX HR HC. apply I3; [intros x Hx; apply HX; now right | exact HR |]. intros C x y Hx. exact (HC C x y (or_intror Hx)).
      * assert (NR : forall g, In g r -> segOf g <> segOf f).
        { intros g Hg EG. destruct r as [| h r]; [exact Hg|]. apply strEqb_neq in END. destruct Hg as [<- | Hg]; [apply END; now symmetry|].
          assert (EA3 : all = (pre ++ [f]) ++ h :: r) by exact EA2. pose proof (proj2 (segs_le all _ h r HS EA3) g Hg) as L. apply END. apply sle_antisym; [exact (LR h (or_introl eq_refl)) | rewrite <- EG; exact L]. }
        assert (OF : once all f = true).
        { apply (once_yes all f pre r EA). intros g Hg. apply in_app_or in Hg. destruct Hg as [Hg | Hg]; [exact (NP g Hg) | exact (NR g Hg)]. }
        destruct (match cur, lastOf ranges with true, Some x => _ | _, _ => Ok false end) as [next | e |] eqn:EN; cbn [bind]; try discriminate.
        intros H. apply (IH (pre ++ [f]) None _ _ _ _ _ _ _ EA2) in H; [| intros g h Hg Hh E1; exfalso | discriminate].
        2:{ apply in_app_or in Hg. destruct Hg as [Hg | [<- | []]]; [| exact (NR h Hh (eq_sym E1))].
            pose proof (LP g Hg) as L1. pose proof (LR h Hh) as L2. rewrite <- E1 in L2. exact (NP g Hg (sle_antisym _ _ L1 L2)). }
        destruct H as (I1 & (ds & D1 & D2 & D3) & I3). cbn [filter]. rewrite OF. split; [rewrite I1, <- app_assoc; reflexivity|]. split.
        -- exists ds. split; [exact D1|]. split; [exact D2|]. intros s. rewrite D3. split.
           ++ intros (_ & x & B & C & D). split; [| exists x; split; [now right | auto]]. intros ->. destruct (HK s eq_refl) as (g & Hg & EG).
              apply (NR x B). apply sle_antisym; [rewrite C, <- EG; exact (LP g Hg) | exact (LR x B)].
           ++ intros (A & x & [<- | B] & C & D); [congruence|]. split; [discriminate | eauto].
        -- intros bad segs HX HR HC. cbn [map]. change (segOf f :: map segOf (filter (once all) r)) with ([segOf f] ++ map segOf (filter (once all) r)). rewrite app_assoc. apply I3; [intros x Hx; apply HX; now right | | discriminate].
           destruct next.
           ++ destruct cur; [| discriminate]. destruct (lastOf ranges) as [x |] eqn:EL; [| discriminate]. destruct (walSegmentNext (vrStop x) size) as [n | |] eqn:EW; cbn [bind] in EN; try discriminate.
              injection EN as EN. apply strEqb_eq in EN. subst n. destruct (lastOf_some _ _ EL) as (q & ->). rewrite setLast_app. apply runs_extend; [exact HR | exact EW |]. exact (proj2 (HX f (or_introl eq_refl) OF)).
           ++ apply runs_new; [exact HR | | exact (proj1 (HX f (or_introl eq_refl) OF))]. intros x EL. destruct cur; [| exact (HC eq_refl f x (or_introl eq_refl) EL)]. rewrite EL in EN. unfold follows. intros F. rewrite F in EN. cbn [bind] in EN. now rewrite strEqb_refl in EN.
Qed.

(** * Files of a path *)
Lemma sorted_segs l : StronglySorted sle l -> segsSorted l.
Proof.
  unfold segsSorted. induction 1 as [| a l H IH HF]; cbn [map]; constructor; [exact IH|]. rewrite Forall_forall in HF |- *. intros x Hx. apply in_map_iff in Hx. destruct Hx as (y & <- & Hy). exact (prefix_mono 24 _ _ (HF y Hy)).
Qed.
Lemma filter_all {A} (p : A -> bool) l : (forall x, In x l -> p x = true) -> filter p l = l.
Proof. induction l as [| x l IH]; intros H; [reflexivity|]. cbn [filter]. rewrite (H x (or_introl eq_refl)), IH; [reflexivity|]. intros y Hy. apply H. now right. Qed.
Lemma filter_nothing {A} (p : A -> bool) l : (forall x, In x l -> p x = false) -> filter p l = [].
Proof. induction l as [| x l IH]; intros H; [reflexivity|]. cbn [filter]. rewrite (H x (or_introl eq_refl)). apply IH. intros y Hy. apply H. now right. Qed.
Lemma dropBefore_filter a l : segsSorted l -> dropBefore a l = filter (fun f => strLeb a (segOf f)) l.
Proof.
  induction l as [| f l IH]; intros H; [reflexivity|]. cbn [dropBefore filter]. inversion H as [| ? ? H1 H2]; subst. destruct (strLtb_spec (segOf f) a) as [L | L].
  - replace (strLeb a (segOf f)) with false; [exact (IH H1)|]. symmetry. apply not_true_is_false. rewrite strLeb_le. intros G. exact (slt_irrefl _ (slt_le_trans _ _ _ L G)).
  - assert (G : strLeb a (segOf f) = true) by (apply strLeb_le, sle_not_lt; exact L). rewrite G. f_equal. symmetry. apply filter_all. intros x Hx.
    apply strLeb_le. apply strLeb_le in G. rewrite Forall_forall in H2. apply (sle_trans _ (segOf f)); [exact G|]. apply H2, in_map, Hx.
Qed.
Lemma dropAfter_filter b l : segsSorted l -> dropAfter b l = filter (fun f => strLeb (segOf f) b) l.
Proof.
  induction l as [| f l IH]; intros H; [reflexivity|]. cbn [dropAfter filter]. inversion H as [| ? ? H1 H2]; subst. rewrite (IH H1). rewrite Forall_forall in H2.
  destruct (strLtb_spec b (segOf f)) as [L | L].
  - replace (strLeb (segOf f) b) with false.
    2:{ symmetry. apply not_true_is_false. rewrite strLeb_le. intros G. exact (slt_irrefl _ (slt_le_trans _ _ _ L G)). }
    rewrite filter_nothing; [reflexivity|]. intros x Hx. apply not_true_is_false. rewrite strLeb_le. intros G.
    exact (slt_irrefl _ (slt_le_trans _ _ _ L (sle_trans _ _ _ (H2 _ (in_map segOf _ _ Hx)) G))).
  - assert (G : strLeb (segOf f) b = true) by (apply strLeb_le, sle_not_lt; exact L). rewrite G.
    destruct (filter (fun f0 => strLeb (segOf f0) b) l); reflexivity.
Qed.
Lemma filterWal_filter o l : segsSorted l -> filterWal o l = filter (wanted o) l.
Proof.
  intros H. destruct o as [[(a, b) |] |]; cbn [filterWal].
  - rewrite dropBefore_filter by exact H. rewrite dropAfter_filter.
    + clear H. induction l as [| f l IH]; [reflexivity|]. cbn [filter]. unfold wanted at 1. fold (segOf f). destruct (strLeb a (segOf f)); cbn [filter andb]; [| exact IH]. destruct (strLeb (segOf f) b); [now rewrite IH | exact IH].
    + unfold segsSorted in *. clear -H. induction l as [| f l IH]; [constructor|]. cbn [filter map] in *. inversion H as [| ? ? H1 H2]; subst. destruct (strLeb a (segOf f)); [| exact (IH H1)].
      cbn [map]. constructor; [exact (IH H1)|]. rewrite Forall_forall in *. intros x Hx. apply in_map_iff in Hx. destruct Hx as (y & <- & Hy). apply filter_In in Hy. apply H2, in_map, Hy.
  - symmetry. apply filter_nothing. reflexivity.
  - symmetry. apply filter_all. reflexivity.
Qed.
Lemma next_timeline size a b : properSeg a -> follows size a b -> firstn 8 b = firstn 8 a.
Proof.
  intros (t & x & y & Ht & Hx & Hy & ->) F. change (2 ^ 32) with two32 in *. unfold follows, walSegmentNext in F. destruct (walName_parts t x y Ht Hx Hy) as (L & T & _ & _). rewrite L, T in F.
  destruct (negb (24 =? 24)%nat || _); [discriminate|]. cbn [bind] in F. injection F as <-. unfold walName. pose proof (hex8_length t Ht) as L8.
  assert (P : forall r, firstn 8 (hex8 t ++ r) = hex8 t) by (intros r; replace 8%nat with (length (hex8 t) + 0)%nat by lia; rewrite firstn_app_2, firstn_O, app_nil_r; reflexivity).
  destruct (_ <? _); rewrite !P; reflexivity.
Qed.
Lemma runs_last size bad segs R x : isRuns size bad segs R -> lastOf R = Some x -> In (vrStop x) segs.
Proof.
  intros (rs & <- & HF & _) E. destruct (lastOf_some _ _ E) as (q & ->). apply Forall2_snoc_inv in HF. destruct HF as (l & r & -> & _ & _ & (u & ->) & _). rewrite concat_app. cbn [concat]. rewrite app_nil_r. apply in_or_app. right. apply in_or_app. right. now left.
Qed.

Section Load.
Variable w : vworld.
Variable o : option (option (str * str)).
Notation listed := (listed w o).
Notation dupsAre := (dupsAre w o).
Lemma listed_sorted id p : segsSorted (listed id p).
Proof. apply sorted_segs, StronglySorted_filter, strLstSortAsc_sorted. Qed.
Lemma walFiles_listed id p : walFiles w o id p = filter (once (listed id p)) (listed id p).
Proof. reflexivity. Qed.
Definition sizeFrom (id p : str) (old new : Z) : Prop :=
  match listed id p with [] => new = old | f :: _ => if old =? 0 then vwWalSize w (slashed repoArchive (slashed id (slashed p f))) = Ok new else new = old end.
Lemma load_spec id p a kept a' e : vaId a = id -> loadPath w o p a = Ok (kept, a', e) ->
  kept = walFiles w o id p /\ vaId a' = id /\ vaValid a' = vaValid a /\ vaTotal a' = vaTotal a + Z.of_nat (length (listed id p)) /\ dupsAre id p e /\ sizeFrom id p (vaSize a) (vaSize a') /\
  forall bad segs, walPathOk p (listed id p) -> Forall properSeg segs -> (forall f, In f kept -> bad [segOf f] [] /\ forall r b, bad r b -> bad (r ++ [segOf f]) b) ->
    isRuns (vaSize a') bad segs (vaRanges a) -> isRuns (vaSize a') bad (segs ++ map segOf kept) (vaRanges a').
Proof.
  intros <-. unfold loadPath. rewrite filterWal_filter by apply sorted_segs, strLstSortAsc_sorted. fold (listed (vaId a) p). pose proof (listed_sorted (vaId a) p) as HS. rewrite walFiles_listed. unfold VerifySpec.dupsAre, sizeFrom.
  destruct (listed (vaId a) p) as [| f r] eqn:EL.
  - intros H. injection H as <- <- <-. repeat split; [cbn [length]; lia | |]. { exists []. split; [constructor|]. split; [reflexivity|]. intros s. split; [intros [] | intros (g & [] & _)]. }
    intros bad segs _ _ _ HR. cbn [map filter]. now rewrite app_nil_r.
  - set (l := f :: r) in *. destruct (if vaSize a =? 0 then _ else _) as [size | |] eqn:EZ; cbn [bind]; try discriminate. unfold createRanges. cbn [vaSize vaRanges vaId vaTotal vaValid].
    destruct (rangeLoop _ _ _ _ _ _ _) as [((R, K), E) | |] eqn:EW; cbn [bind]; try discriminate. intros H. injection H as <- <- <-. cbn [vaSize vaRanges vaId vaTotal vaValid].
    destruct (loop_spec size l HS l [] None (vaRanges a) _ [] 0 R K E eq_refl ltac:(intros g h []) ltac:(discriminate) EW) as (I1 & (ds & D1 & D2 & D3) & I3). cbn [app] in I1. subst K.
    repeat split.
    + exists ds. split; [exact D1|]. split; [exact D2|]. intros s. rewrite D3. split; [intros (_ & X); exact X | intros X; split; [discriminate | exact X]].
    + destruct (vaSize a =? 0); [exact EZ | now injection EZ].
    + intros bad segs HW HP HB HR. apply I3; [| exact HR |].
      * intros g Hg Og. apply HB. apply filter_In. auto.
      * intros C g x Hg EX F. rewrite EX in C. unfold l in C. apply strEqb_neq in C. apply C.
        pose proof (runs_last _ _ _ _ _ HR EX) as IN. rewrite Forall_forall in HP. pose proof (next_timeline _ _ _ (HP _ IN) F) as T. rewrite <- T.
        destruct (HW f (or_introl eq_refl)) as [_ P1]. destruct (HW g Hg) as [_ P2]. unfold segOf. rewrite !firstn_firstn. cbn [Nat.min].
        replace (firstn 8 f) with (firstn 8 (firstn 16 f)) by (rewrite firstn_firstn; reflexivity). replace (firstn 8 g) with (firstn 8 (firstn 16 g)) by (rewrite firstn_firstn; reflexivity). now rewrite P1, P2.
Qed.
End Load.
