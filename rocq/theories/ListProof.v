(** Cells, and each call on a list *)
From Coq Require Import Lia Sorting.Permutation Sorting.Sorted.
From Verif Require Import Base Str ListModel ListSpec.
Open Scope Z_scope.
Open Scope list_scope.

Section Proof.
Context {A : Type}.
Implicit Types (a b m c : list (option A)) (l : lst A) (xs : list A).

Lemma firstn_at {B} (a b : list B) : firstn (length a) (a ++ b) = a.
Proof. rewrite firstn_app, Nat.sub_diag, firstn_all. cbn. apply app_nil_r. Qed.
Lemma skipn_at {B} (a b : list B) : skipn (length a) (a ++ b) = b.
Proof. rewrite skipn_app, Nat.sub_diag, skipn_all. reflexivity. Qed.
Lemma skipn_at2 {B} (a b : list B) n : skipn (length a + n) (a ++ b) = skipn n b.
Proof. rewrite skipn_app, skipn_all2 by lia. replace (length a + n - length a)%nat with n by lia. reflexivity. Qed.
Lemma firstn_at2 {B} (a b : list B) n : firstn (length a + n) (a ++ b) = a ++ firstn n b.
Proof. rewrite firstn_app, firstn_all2 by lia. replace (length a + n - length a)%nat with n by lia. reflexivity. Qed.

Lemma store_mid a x b y : store (a ++ x :: b) (length a) y = Ok (a ++ y :: b).
Proof.
  unfold store. replace (length a <? length (a ++ x :: b))%nat with true.
  - rewrite firstn_at. replace (S (length a)) with (length a + 1)%nat by lia. rewrite skipn_at2. reflexivity.
  - symmetry. apply Nat.ltb_lt. rewrite app_length. cbn. lia.
Qed.
Lemma vacate_mid m : forall a b, vacate (a ++ m ++ b) (length a) (length m) = Ok (a ++ repeat None (length m) ++ b).
Proof.
  induction m as [|x m IH]; intros a b; cbn [length vacate repeat]; [reflexivity|].
  change ((x :: m) ++ b) with (x :: (m ++ b)). rewrite store_mid. cbn [bind].
  replace (a ++ None :: m ++ b) with ((a ++ [None]) ++ m ++ b) by (rewrite <- app_assoc; reflexivity).
  replace (S (length a)) with (length (a ++ [None])) by (rewrite app_length; cbn; lia).
  rewrite IH, <- app_assoc. reflexivity.
Qed.
Lemma move_ok c d s n : (s + n <= length c)%nat -> (d + n <= length c)%nat -> move c d s n = Ok (firstn d c ++ firstn n (skipn s c) ++ skipn (d + n) c).
Proof. intros H1 H2. unfold move. apply Nat.leb_le in H1, H2. rewrite H1, H2. reflexivity. Qed.
Lemma move_up a m z b : exists w, move (a ++ m ++ z :: b) (length a + 1) (length a) (length m) = Ok (a ++ w :: m ++ b).
Proof.
  exists (hd z m). rewrite move_ok by (rewrite !app_length; cbn; lia).
  f_equal. rewrite firstn_at2, skipn_at, firstn_at.
  replace (length a + 1 + length m)%nat with (length a + (length m + 1))%nat by lia.
  rewrite skipn_at2, skipn_at2. cbn [skipn]. destruct m; cbn [firstn app hd]; rewrite <- !app_assoc; reflexivity.
Qed.
Lemma move_down a x m b : exists w, move (a ++ x :: m ++ b) (length a) (length a + 1) (length m) = Ok (a ++ m ++ w :: b).
Proof.
  exists (last (x :: m) None). rewrite move_ok by (rewrite !app_length; cbn; rewrite ?app_length; lia).
  f_equal. rewrite firstn_at, !skipn_at2. cbn [skipn]. rewrite firstn_at. f_equal. f_equal.
  assert (E : x :: m = removelast (x :: m) ++ [last (x :: m) None]) by (apply app_removelast_last; discriminate).
  change (x :: m ++ b) with ((x :: m) ++ b). rewrite E at 1. rewrite <- app_assoc.
  replace (length m) with (length (removelast (x :: m))).
  - rewrite skipn_at. reflexivity.
  - apply (f_equal (@length _)) in E. rewrite app_length in E. cbn [length] in E. lia.
Qed.
Lemma move_start a m : exists r, move (a ++ m) 0 (length a) (length m) = Ok (m ++ r) /\ length r = length a.
Proof.
  exists (skipn (length m) (a ++ m)). rewrite move_ok by (rewrite !app_length; lia). split.
  - cbn [firstn app Nat.add]. rewrite skipn_at, firstn_all. reflexivity.
  - rewrite skipn_length, app_length. lia.
Qed.
Lemma load_in pre xs post i : load (pre ++ map Some xs ++ post) (length pre + i) = match nth_error xs i with Some x => Ok x | None => load (pre ++ map Some xs ++ post) (length pre + i) end.
Proof.
  destruct (nth_error xs i) as [x|] eqn:E; [|reflexivity]. unfold load.
  rewrite nth_error_app2 by lia. replace (length pre + i - length pre)%nat with i by lia.
  rewrite nth_error_app1 by (rewrite map_length; apply nth_error_Some; congruence).
  rewrite nth_error_map, E. reflexivity.
Qed.
Lemma load_at l xs i x : holds l xs -> nth_error xs i = Some x -> load (liCells l) (liOff l + i) = Ok x.
Proof. intros ((pre & post & Hc & <-) & _ & _) E. rewrite Hc, load_in, E. reflexivity. Qed.

End Proof.

(** * The calls *)
Section Calls.
Context {A : Type}.
Implicit Types (l : lst A) (xs : list A).

Lemma new_holds o (cmp : A -> A -> Z) : holds (lstNew o cmp) [].
Proof.
  split; [exists [], []; split; reflexivity|]. split; [reflexivity|]. intros _. cbn. destruct o; constructor.
Qed.
Lemma get_holds l xs i : holds l xs -> lstGet l i = match nth_error xs i with Some x => Ok x | None => Err EAssert end.
Proof.
  intros H. pose proof H as (_ & Hn & _). unfold lstGet. destruct (Nat.leb_spec (liSize l) i) as [L|L].
  - replace (nth_error xs i) with (@None A); [reflexivity|]. symmetry. apply nth_error_None. lia.
  - destruct (nth_error xs i) as [x|] eqn:E; [exact (load_at l xs i x H E)|]. apply nth_error_None in E. lia.
Qed.
Lemma getLast_holds l xs : holds l xs -> lstGetLast l = match rev xs with x :: _ => Ok x | [] => Err EAssert end.
Proof.
  intros H. pose proof H as (_ & Hn & _). unfold lstGetLast. destruct (rev xs) as [|x r] eqn:E.
  - apply (f_equal (@length _)) in E. rewrite rev_length in E. cbn in E. rewrite Hn, E. reflexivity.
  - assert (E2 : xs = rev r ++ [x]) by (rewrite <- (rev_involutive xs), E; reflexivity).
    assert (Hl : length xs = S (length (rev r))) by (rewrite E2, app_length; cbn; lia).
    rewrite Hn, Hl. cbn [Nat.eqb]. apply (load_at l xs _ _ H). rewrite E2, nth_error_app2 by lia.
    replace (S (length (rev r)) - 1 - length (rev r))%nat with 0%nat by lia. reflexivity.
Qed.

Lemma withAt_split xs i x : (i <= length xs)%nat -> exists u v, xs = u ++ v /\ length u = i /\ withAt xs i x = u ++ x :: v.
Proof.
  intros H. exists (firstn i xs), (skipn i xs). rewrite firstn_skipn. split; [reflexivity|]. split; [|reflexivity]. apply firstn_length_le. exact H.
Qed.
Lemma without_split xs i : (i < length xs)%nat -> exists u y v, xs = u ++ y :: v /\ length u = i /\ without xs i = u ++ v.
Proof.
  intros H. unfold without. destruct (nth_error xs i) as [y|] eqn:E.
  - apply nth_error_split in E. destruct E as (u & v & -> & <-). exists u, y, v. split; [reflexivity|]. split; [reflexivity|].
    rewrite firstn_at. replace (S (length u)) with (length u + 1)%nat by lia. rewrite skipn_at2. reflexivity.
  - apply nth_error_None in E. lia.
Qed.

Lemma off_bound l xs : holds l xs -> (liOff l + liSize l <= length (liCells l))%nat.
Proof. intros ((pre & post & -> & <-) & -> & _). rewrite !app_length, map_length. lia. Qed.

Definition grown (n : nat) : nat := if (n =? 0)%nat then 8 else 2 * n.

Lemma insert_holds l xs i x : holds l xs -> (i <= length xs)%nat -> 2 * Z.of_nat (length xs) < 2 ^ 32 ->
  exists l', lstInsert l i x = Ok l' /\ holds l' (withAt xs i x) /\ liCmp l' = liCmp l /\ (liOff l' = 0%nat \/ liOff l' = liOff l) /\
             (length (liCells l') = length (liCells l) \/ length (liCells l) = length xs /\ length (liCells l') = grown (length xs)) /\
             liOrder l' = ONone.
Proof.
  intros H Hi Hb. pose proof H as ((pre & post & Hc & Ho) & Hn & _). pose proof (off_bound _ _ H) as Hob.
  unfold lstInsert. replace (liSize l <? i)%nat with false by (symmetry; apply Nat.ltb_ge; lia).
  set (y := if (liSize l =? length (liCells l))%nat then _ else _).
  assert (Y : exists pre' post', y = Ok (pre' ++ map Some xs ++ post', length pre') /\ (post' <> []) /\ (length pre' = 0%nat \/ length pre' = liOff l) /\
              (length (pre' ++ map Some xs ++ post') = length (liCells l) \/
               length (liCells l) = length xs /\ length (pre' ++ map Some xs ++ post') = grown (length xs))).
  { unfold y. clear y. destruct (Nat.eqb_spec (liSize l) (length (liCells l))) as [E|E].
    - assert (Hp : pre = [] /\ post = []).
      { apply (f_equal (@length _)) in Hc. rewrite !app_length, map_length in Hc. destruct pre, post; cbn [length] in Hc; try lia. split; reflexivity. }
      destruct Hp as [-> ->]. cbn [app length] in Hc, Ho. rewrite app_nil_r in Hc.
      destruct (Nat.eqb_spec (length (liCells l)) 0) as [E0|E0].
      + assert (xs = []) as -> by (destruct xs; [reflexivity|]; cbn in Hn; lia).
        exists [], (repeat None 8). split; [reflexivity|]. split; [discriminate|]. split; [left; reflexivity|]. right. split; [exact E0|reflexivity].
      + rewrite <- Ho. cbn [Nat.eqb negb orb]. replace (2 ^ 32 <=? 2 * Z.of_nat (length (liCells l))) with false by (symmetry; apply Z.leb_gt; lia).
        exists [], (repeat None (length (liCells l))). split; [rewrite Hc; reflexivity|]. split; [destruct (length (liCells l)); [lia|discriminate]|].
        split; [left; reflexivity|]. right. split; [lia|]. cbn [app]. rewrite app_length, map_length, repeat_length.
        unfold grown. destruct (Nat.eqb_spec (length xs) 0); lia.
    - destruct (Nat.eqb_spec (liOff l) 0) as [E0|E0]; cbn [negb andb].
      + exists pre, post. split; [rewrite Hc, Ho; reflexivity|]. split; [|split; [right; exact Ho|left; rewrite Hc; reflexivity]].
        intros ->. apply E. rewrite Hc, !app_length, map_length, Ho, E0. cbn [length]. lia.
      + destruct (Nat.eqb_spec (liSize l + liOff l) (length (liCells l))) as [E1|E1].
        * assert (post = []) as ->.
          { apply (f_equal (@length _)) in Hc. rewrite !app_length, map_length in Hc. destruct post; [reflexivity|]. cbn [length] in Hc. lia. }
          rewrite app_nil_r in Hc. rewrite Hc, <- Ho, Hn.
          destruct (move_start pre (map Some xs)) as (r & Hm & Hr). rewrite map_length in Hm. rewrite Hm. cbn [bind].
          rewrite <- Hr. pose proof (vacate_mid r (map Some xs) []) as Hv. rewrite map_length, !app_nil_r in Hv. rewrite Hv. cbn [bind].
          exists [], (repeat None (length r)). split; [reflexivity|]. split; [|split; [left; reflexivity|left; cbn [app]; rewrite !app_length, repeat_length; lia]].
          destruct r; [cbn in Hr; lia|discriminate].
        * exists pre, post. split; [rewrite Hc, Ho; reflexivity|]. split; [|split; [right; exact Ho|left; rewrite Hc; reflexivity]].
          intros ->. apply E1. rewrite Hc, !app_length, map_length, Ho. cbn [length]. lia. }
  destruct Y as (pre' & post' & -> & Hne & Hpo & Hlen). cbn [bind].
  destruct post' as [|z post']; [congruence|]. clear Hne.
  destruct (withAt_split xs i x Hi) as (u & v & Exs & Hu & Hw).
  set (w := if (i =? liSize l)%nat then _ else _).
  assert (W : exists q, w = Ok (pre' ++ map Some u ++ q :: map Some v ++ post')).
  { unfold w. rewrite Exs. destruct (Nat.eqb_spec i (liSize l)) as [E|E].
    - assert (v = []) as -> by (destruct v; [reflexivity|]; rewrite Exs, app_length in Hn; cbn in Hn; lia). exists z. rewrite app_nil_r. reflexivity.
    - replace (length pre' + (i + 1))%nat with (length (pre' ++ map Some u) + 1)%nat by (rewrite app_length, map_length; lia).
      replace (length pre' + i)%nat with (length (pre' ++ map Some u)) by (rewrite app_length, map_length; lia).
      replace (liSize l - i)%nat with (length (map (@Some A) v)) by (rewrite map_length, Hn, Exs, app_length; lia).
      destruct (move_up (pre' ++ map Some u) (map Some v) z post') as (q & Hq). exists q.
      rewrite map_app, <- !app_assoc. rewrite <- !app_assoc in Hq. exact Hq. }
  destruct W as (q & ->). cbn [bind].
  replace (length pre' + i)%nat with (length (pre' ++ map Some u)) by (rewrite app_length, map_length; lia).
  rewrite app_assoc, store_mid. cbn [bind]. eexists. split; [reflexivity|].
  split; [split; [|split]|split; [reflexivity|split; [exact Hpo|split; [|reflexivity]]]].
  - exists pre', post'. cbn. split; [|reflexivity]. rewrite Hw, map_app, <- !app_assoc. reflexivity.
  - cbn. rewrite Hn, Hw, Exs, !app_length. cbn. lia.
  - intros _. exact I.
  - cbn [liCells]. assert (Q : length ((pre' ++ map Some u) ++ Some x :: map Some v ++ post') = length (pre' ++ map Some xs ++ z :: post')).
    { rewrite Exs, map_app, !app_length. cbn [length]. rewrite !app_length. lia. }
    rewrite Q. exact Hlen.
Qed.

Lemma sorted_without o cmp xs i : (i < length xs)%nat -> sortedAs o cmp xs -> sortedAs o cmp (without xs i).
Proof.
  intros Hi. destruct (without_split xs i Hi) as (u & y & v & -> & _ & ->). clear Hi.
  assert (G : forall R : A -> A -> Prop, StronglySorted R (u ++ y :: v) -> StronglySorted R (u ++ v)).
  { intros R. induction u as [|z u IH]; cbn [app]; intros H; inversion H as [|? ? H1 H2]; subst; [exact H1|].
    constructor.
    - apply IH. exact H1.
    - apply Forall_app in H2. destruct H2 as [H2 H3]. inversion H3; subst. apply Forall_app. split; assumption. }
  destruct o; cbn; [auto|apply G|apply G].
Qed.
Lemma removeIdx_holds l xs i : holds l xs -> (i < length xs)%nat ->
  exists l', lstRemoveIdx l i = Ok l' /\ holds l' (without xs i) /\ liCmp l' = liCmp l /\ liOff l' = (if Nat.eqb i 0 then S (liOff l) else liOff l) /\
             length (liCells l') = length (liCells l) /\ liOrder l' = liOrder l.
Proof.
  intros H Hi. pose proof H as ((pre & post & Hc & Ho) & Hn & Hs). unfold lstRemoveIdx.
  assert (Hs' : isOrder (liCmp l) -> sortedAs (liOrder l) (liCmp l) (without xs i)) by (intros O; apply sorted_without; auto).
  destruct (without_split xs i Hi) as (u & y & v & Exs & Hu & Hw).
  destruct (liSize l) as [|n] eqn:En; [lia|].
  assert (Hn' : n = (length u + length v)%nat) by (rewrite Exs, app_length in Hn; cbn in Hn; lia).
  rewrite Hw in *. rewrite Hc, Exs, <- Ho. destruct (Nat.eqb_spec i 0) as [E|E].
  - assert (u = []) as -> by (destruct u; [reflexivity|]; cbn in Hu; lia). cbn [app] in *.
    pose proof (vacate_mid [Some y] pre (map Some v ++ post)) as Hv. cbn [length app repeat map] in Hv |- *. rewrite Hv. cbn [bind].
    eexists. split; [reflexivity|]. split; [split; [|split]|split; [reflexivity|split; [reflexivity|split; [|reflexivity]]]].
    + exists (pre ++ [None]), post. cbn. rewrite <- !app_assoc. split; [reflexivity|]. rewrite app_length. cbn. lia.
    + cbn. cbn in Hn'. exact Hn'.
    + exact Hs'.
    + cbn. rewrite !app_length. cbn. rewrite !app_length. reflexivity.
  - replace (n <? i)%nat with false by (symmetry; apply Nat.ltb_ge; lia).
    replace (length pre + (i + 1))%nat with (length (pre ++ map Some u) + 1)%nat by (rewrite app_length, map_length; lia).
    replace (length pre + i)%nat with (length (pre ++ map Some u)) by (rewrite app_length, map_length; lia).
    replace (n - i)%nat with (length (map (@Some A) v)) by (rewrite map_length; lia).
    destruct (move_down (pre ++ map Some u) (Some y) (map Some v) post) as (q & Hq).
    rewrite map_app, <- !app_assoc in *. cbn [map app] in *. rewrite Hq. cbn [bind].
    pose proof (vacate_mid [q] (pre ++ map Some (u ++ v)) post) as Hv. cbn [length app repeat] in Hv.
    rewrite app_length, map_length, app_length, <- Hn' in Hv. rewrite map_app, <- !app_assoc in Hv. rewrite Hv. cbn [bind].
    eexists. split; [reflexivity|]. split; [split; [|split]|split; [reflexivity|split; [reflexivity|split; [|reflexivity]]]].
    + exists pre, (None :: post). cbn. rewrite map_app, <- !app_assoc. split; reflexivity.
    + cbn. rewrite app_length. exact Hn'.
    + exact Hs'.
    + cbn. rewrite !app_length. cbn. rewrite !app_length. cbn. lia.
Qed.

(** * Finding *)
Lemma flip_order cmp : isOrder cmp -> isOrder (fun a b : A => cmp b a).
Proof. intros [H1 H2]. split; [intros a b; apply H1|]. intros a b c Ha Hb. exact (H2 c b a Hb Ha). Qed.
Lemma order_zero cmp : isOrder cmp -> forall a b : A, cmp a b = 0 -> cmp b a = 0.
Proof. intros [H1 H2] a b H. pose proof (H1 a b). pose proof (H1 b a). lia. Qed.
Lemma ss_nth (R : A -> A -> Prop) xs : StronglySorted R xs -> forall i j y z, (i < j)%nat -> nth_error xs i = Some y -> nth_error xs j = Some z -> R y z.
Proof.
  induction 1 as [|x xs H IH Hf]; intros i j y z L Hy Hz; [destruct i; discriminate|].
  destruct j as [|j]; [lia|]. destruct i as [|i]; cbn in Hy, Hz.
  - injection Hy as <-. rewrite Forall_forall in Hf. apply Hf. apply nth_error_In in Hz. exact Hz.
  - apply (IH i j); [lia|assumption|assumption].
Qed.
Lemma bsearch_ok cmp l xs x : isOrder cmp -> holds l xs -> StronglySorted (fun a b => cmp a b <= 0) xs ->
  forall fuel lo hi, (hi <= length xs)%nat -> (hi - lo <= fuel)%nat ->
  (forall j y, nth_error xs j = Some y -> (j < lo)%nat \/ (hi <= j)%nat -> cmp x y <> 0) ->
  exists r, bsearch fuel cmp (liCells l) (liOff l) x lo hi = Ok r /\
             match r with Some i => exists y, nth_error xs i = Some y /\ cmp x y = 0 | None => forall y, In y xs -> cmp x y <> 0 end.
Proof.
  intros HO H HS. induction fuel as [|fuel IH]; intros lo hi Hh Hf Hout; cbn [bsearch].
  - eexists. split; [reflexivity|]. intros y Hy. apply In_nth_error in Hy. destruct Hy as [j Hj]. apply (Hout j y Hj). lia.
  - destruct (Nat.ltb_spec lo hi) as [L|L].
    2:{ eexists. split; [reflexivity|]. intros y Hy. apply In_nth_error in Hy. destruct Hy as [j Hj]. apply (Hout j y Hj). lia. }
    set (mid := Nat.div2 (lo + hi)).
    assert (Hm : (lo <= mid < hi)%nat).
    { unfold mid. rewrite Nat.div2_div. split; [apply Nat.div_le_lower_bound; lia|apply Nat.div_lt_upper_bound; lia]. }
    destruct (nth_error xs mid) as [y|] eqn:Ey; [|apply nth_error_None in Ey; lia].
    rewrite (load_at l xs mid y H Ey). cbn [bind]. destruct HO as [H1 H2].
    destruct (Z.ltb_spec (cmp x y) 0) as [C|C]; [|destruct (Z.ltb_spec 0 (cmp x y)) as [D|D]].
    + apply IH; [lia|lia|]. intros j z Hz [Hj|Hj]; [apply (Hout j z Hz); lia|].
      assert (S1 : cmp y z <= 0).
      { destruct (Nat.eq_dec mid j) as [<-|N]; [|refine (ss_nth _ xs HS mid j y z _ Ey Hz); lia].
        rewrite Ey in Hz. injection Hz as <-. pose proof (H1 y y). lia. }
      intros E. pose proof (H1 x z). pose proof (H1 z x). pose proof (H2 y z x S1 ltac:(lia)). pose proof (H1 x y). lia.
    + apply IH; [lia|lia|]. intros j z Hz [Hj|Hj]; [|apply (Hout j z Hz); lia].
      assert (S1 : cmp z y <= 0).
      { destruct (Nat.eq_dec mid j) as [<-|N]; [|refine (ss_nth _ xs HS j mid z y _ Hz Ey); lia].
        rewrite Ey in Hz. injection Hz as <-. pose proof (H1 y y). lia. }
      intros E. pose proof (H2 x z y ltac:(lia) S1). lia.
    + eexists. split; [reflexivity|]. exists y. split; [exact Ey|lia].
Qed.
Lemma scan_ok l xs x : holds l xs -> forall n i, (i + n = length xs)%nat -> (forall j z, (j < i)%nat -> nth_error xs j = Some z -> liCmp l x z <> 0) ->
  exists r, scan l x i n = Ok r /\ foundAt ONone (liCmp l) xs x r.
Proof.
  intros H. induction n as [|n IH]; intros i Hi Hout; cbn [scan].
  - eexists. split; [reflexivity|]. intros y Hy. apply In_nth_error in Hy. destruct Hy as [j Hj]. apply (Hout j y); [|exact Hj].
    assert (j < length xs)%nat by (apply nth_error_Some; congruence). lia.
  - rewrite (get_holds l xs i H). destruct (nth_error xs i) as [y|] eqn:Ey; [|apply nth_error_None in Ey; lia]. cbn [bind].
    destruct (Z.eqb_spec (liCmp l x y) 0) as [E|E].
    + eexists. split; [reflexivity|]. exists y. split; [exact Ey|]. split; [exact E|]. intros _. exact Hout.
    + apply IH; [lia|]. intros j z Hj Hz. destruct (Nat.eq_dec j i) as [->|N]; [congruence|]. apply (Hout j z); [lia|exact Hz].
Qed.
Lemma find_holds l xs x : holds l xs -> isOrder (liCmp l) -> exists r, lstFind l x = Ok r /\ foundAt (liOrder l) (liCmp l) xs x r.
Proof.
  intros H HO. pose proof H as ((pre & post & Hc & Ho) & Hn & Hs). specialize (Hs HO). unfold lstFind.
  destruct (liCells l) as [|c0 c] eqn:Ec.
  { exists None. split; [reflexivity|]. intros y Hy. destruct pre; [|discriminate]. destruct xs; [destruct Hy|discriminate]. }
  rewrite <- Ec. destruct (liOrder l) eqn:Eo.
  - destruct (scan_ok l xs x H (liSize l) 0%nat ltac:(lia)) as (r & -> & Hr); [intros; lia|]. exists r. split; [reflexivity|exact Hr].
  - destruct (bsearch_ok (liCmp l) l xs x HO H Hs (liSize l) 0 (liSize l)) as (r & -> & Hr); [lia|lia|intros j y Hj [L|L]; [lia|]|].
    { assert (j < length xs)%nat by (apply nth_error_Some; congruence). lia. }
    exists r. split; [reflexivity|]. destruct r as [i|]; [|exact Hr]. destruct Hr as (y & H1 & H2). exists y. split; [exact H1|]. split; [exact H2|]. discriminate.
  - destruct (bsearch_ok (fun a b => liCmp l b a) l xs x (flip_order _ HO) H Hs (liSize l) 0 (liSize l)) as (r & -> & Hr); [lia|lia|intros j y Hj [L|L]; [lia|]|].
    { assert (j < length xs)%nat by (apply nth_error_Some; congruence). lia. }
    exists r. split; [reflexivity|]. destruct r as [i|].
    + destruct Hr as (y & H1 & H2). exists y. split; [exact H1|]. split; [exact (order_zero _ HO _ _ H2)|]. discriminate.
    + intros y Hy E. exact (Hr y Hy (order_zero _ HO _ _ E)).
Qed.

(** * Sorting *)
Lemma values_some xs : values (map Some xs) = Ok xs.
Proof. induction xs as [|x xs IH]; [reflexivity|]. cbn [map values]. rewrite IH. reflexivity. Qed.
Lemma sort_holds qs l xs o : sorts qs -> holds l xs -> isOrder (liCmp l) ->
  exists l' ys, lstSort qs l o = Ok l' /\ holds l' ys /\ Permutation ys xs /\ sortedAs o (liCmp l) ys /\ liCmp l' = liCmp l /\ liOff l' = liOff l /\
             length (liCells l') = length (liCells l) /\ liOrder l' = o.
Proof.
  intros [Q1 Q2] H HO. pose proof H as ((pre & post & Hc & Ho) & Hn & Hs).
  assert (S0 : liCells l = [] -> exists l' ys, Ok (mkLst (liCells l) (liOff l) (liSize l) o (liCmp l)) = Ok l' /\ holds l' ys /\ Permutation ys xs /\
             sortedAs o (liCmp l) ys /\ liCmp l' = liCmp l /\ liOff l' = liOff l /\ length (liCells l') = length (liCells l) /\ liOrder l' = o).
  { intros E. assert (xs = []) as -> by (rewrite E in Hc; destruct pre; [|discriminate]; destruct xs; [reflexivity|discriminate]).
    exists (mkLst (liCells l) (liOff l) (liSize l) o (liCmp l)), []. split; [reflexivity|]. split; [|repeat split; try reflexivity; destruct o; constructor].
    split; [exists pre, post; split; assumption|]. split; [exact Hn|]. intros _. destruct o; constructor. }
  assert (S1 : forall cmp, (forall a b c, cmp a b <= 0 -> cmp b c <= 0 -> cmp a c <= 0) -> (forall a b, cmp a b <= 0 \/ cmp b a <= 0) ->
             (StronglySorted (fun a b => cmp a b <= 0) (qs cmp xs) -> sortedAs o (liCmp l) (qs cmp xs)) ->
             exists l' ys, (let* zs := values (firstn (liSize l) (skipn (liOff l) (liCells l))) in
               Ok (mkLst (firstn (liOff l) (liCells l) ++ map Some (qs cmp zs) ++ skipn (liOff l + liSize l) (liCells l)) (liOff l) (liSize l) o (liCmp l))) = Ok l' /\
             holds l' ys /\ Permutation ys xs /\
             sortedAs o (liCmp l) ys /\ liCmp l' = liCmp l /\ liOff l' = liOff l /\ length (liCells l') = length (liCells l) /\ liOrder l' = o).
  { intros cmp T1 T2 T3. rewrite Hc, <- Ho, Hn, skipn_at. replace (length xs) with (length (map (@Some A) xs)) by apply map_length.
    rewrite firstn_at, values_some. cbn [bind]. rewrite firstn_at, skipn_at2, skipn_at.
    specialize (T3 (Q2 cmp xs T1 T2)). pose proof (Permutation_length (Q1 cmp xs)) as HL.
    eexists _, (qs cmp xs). split; [reflexivity|]. split; [split; [|split]|split; [apply Q1|split; [exact T3|split; [reflexivity|split; [reflexivity|split; [|reflexivity]]]]]].
    - exists pre, post. split; reflexivity.
    - cbn. rewrite map_length. symmetry. exact HL.
    - intros _. exact T3.
    - cbn. rewrite !app_length, !map_length, HL. reflexivity. }
  destruct HO as [O1 O2]. unfold lstSort. destruct (liCells l) as [|c0 c] eqn:Ec; [rewrite <- Ec in *; destruct o; apply S0; reflexivity|]. rewrite <- Ec in *. destruct o.
  - eexists _, xs. split; [reflexivity|]. split; [split; [exists pre, post; split; assumption|split; [exact Hn|intros _; exact I]]|]. repeat split; reflexivity.
  - apply (S1 (liCmp l)); [exact O2| |intros K; exact K]. intros a b. pose proof (O1 a b). pose proof (O1 b a). lia.
  - apply (S1 (fun a b => liCmp l b a)); [intros a b d Ha Hb; exact (O2 d b a Hb Ha)| |intros K; exact K]. intros a b. pose proof (O1 a b). pose proof (O1 b a). lia.
Qed.
End Calls.
