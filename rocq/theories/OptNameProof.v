(** Keys and searches *)
From Coq Require Import Lia Sorting.Sorted.
From Verif Require Import Base Str ConvertModel NumModel ListModel ListSpec ListProof ListProof2 OptNameModel OptNameSpec.
Open Scope Z_scope.
Open Scope list_scope.

Lemma isDigit_spec c : isDigit c = true <-> 48 <= c <= 57.
Proof. unfold isDigit. rewrite Bool.andb_true_iff, !Z.leb_le. lia. Qed.
Lemma splitDash_spec s : match splitDash s with
  | None => ~ In 45 s
  | Some (b, e) => s = b ++ e /\ ~ In 45 b /\ exists e', e = 45 :: e'
  end.
Proof.
  induction s as [|c s IH]; cbn [splitDash]; [intros []|]. destruct (Z.eqb_spec c 45) as [->|N].
  - split; [reflexivity|]. split; [intros []|]. exists s. reflexivity.
  - destruct (splitDash s) as [[b e]|].
    + destruct IH as (-> & H & H2). split; [reflexivity|]. split; [|exact H2]. intros [E|E]; [congruence|auto].
    + intros [E|E]; [congruence|auto].
Qed.
Lemma splitDash_at b e : ~ In 45 b -> splitDash (b ++ 45 :: e) = Some (b, 45 :: e).
Proof.
  induction b as [|c b IH]; intros H; cbn [app splitDash]; [reflexivity|].
  destruct (Z.eqb_spec c 45) as [->|N]; [exfalso; apply H; left; reflexivity|]. rewrite IH; [reflexivity|]. intros Q. apply H. right. exact Q.
Qed.
Lemma splitDash_none s : ~ In 45 s -> splitDash s = None.
Proof. intros H. pose proof (splitDash_spec s) as Q. destruct (splitDash s) as [[b e]|]; [|reflexivity]. destruct Q as (-> & _ & e' & ->). exfalso. apply H. apply in_or_app. right. left. reflexivity. Qed.

(** * Numbers *)
Fixpoint decR (r : str) : Z := match r with [] => 0 | c :: r => (c - 48) + 10 * decR r end.
Lemma decimal_app ds c : decimal (ds ++ [c]) = 10 * decimal ds + (c - 48).
Proof. unfold decimal. rewrite fold_left_app. reflexivity. Qed.
Lemma decimal_rev r : decimal (rev r) = decR r.
Proof. induction r as [|c r IH]; [reflexivity|]. cbn [rev decR]. rewrite decimal_app, IH. lia. Qed.
Lemma decR_bound r : digitsOnly r -> 0 <= decR r < 10 ^ Z.of_nat (length r).
Proof.
  induction r as [|c r IH]; intros H; [cbn; lia|]. cbn [decR length]. rewrite Nat2Z.inj_succ, Z.pow_succ_r by lia.
  assert (48 <= c <= 57) by (apply H; left; reflexivity). assert (digitsOnly r) as D by (intros d Hd; apply H; right; exact Hd). specialize (IH D). lia.
Qed.
Lemma digitsOnly_rev r : digitsOnly r -> digitsOnly (rev r).
Proof. intros H c Hc. apply H. apply in_rev. exact Hc. Qed.

Lemma scanKey_spec back : forall key mult, 0 <= key < two32 ->
  exists ds rest, back = ds ++ rest /\ digitsOnly ds /\ (forall c r, rest = c :: r -> ~ 48 <= c <= 57) /\
                  scanKey back key mult = ((key + mult * decR ds) mod two32, rest).
Proof.
  induction back as [|c r IH]; intros key mult Hk; cbn [scanKey].
  - exists [], []. split; [reflexivity|]. split; [intros c []|]. split; [discriminate|]. cbn. rewrite Z.mul_0_r, Z.add_0_r, Z.mod_small by exact Hk. reflexivity.
  - destruct (isDigit c) eqn:E.
    + apply isDigit_spec in E. destruct (IH ((key + (c - 48) * mult mod two32) mod two32) (mult * 10 mod two32)) as (ds & rest & -> & D & R & ->); [apply Z.mod_pos_bound; reflexivity|].
      exists (c :: ds), rest. split; [reflexivity|]. split; [intros x [<-|Hx]; [exact E|apply D; exact Hx]|]. split; [exact R|]. f_equal. cbn [decR].
      rewrite Z.add_mod_idemp_l by discriminate.
      rewrite <- (Z.add_mod_idemp_r _ (mult * 10 mod two32 * decR ds)) by discriminate. rewrite Z.mul_mod_idemp_l by discriminate. rewrite Z.add_mod_idemp_r by discriminate.
      rewrite <- Z.add_assoc, (Z.add_comm _ (mult * 10 * decR ds)), Z.add_assoc, Z.add_mod_idemp_r by discriminate. f_equal. ring.
    + exists [], (c :: r). split; [reflexivity|]. split; [intros x []|]. split.
      * intros x y Q. injection Q as <- <-. intros K. apply isDigit_spec in K. congruence.
      * cbn. rewrite Z.mul_0_r, Z.add_0_r, Z.mod_small by exact Hk. reflexivity.
Qed.
Lemma scanKey_at ds rest key mult : 0 <= key < two32 -> digitsOnly ds -> (forall c r, rest = c :: r -> ~ 48 <= c <= 57) ->
  scanKey (ds ++ rest) key mult = ((key + mult * decR ds) mod two32, rest).
Proof.
  intros Hk D R. destruct (scanKey_spec (ds ++ rest) key mult Hk) as (ds' & rest' & E & D' & R' & ->).
  assert (Q : ds = ds' /\ rest = rest').
  { clear - E D D' R R'. revert ds' E D'. induction ds as [|c ds IH]; intros ds' E D'.
    - destruct ds' as [|c' ds']; [split; [reflexivity|exact E]|]. cbn in E. exfalso. apply (R c' _ E). apply D'. left. reflexivity.
    - destruct ds' as [|c' ds'].
      + cbn in E. exfalso. apply (R' c (ds ++ rest)); [symmetry; exact E|]. apply D. left. reflexivity.
      + injection E as <- E. destruct (IH (fun x Hx => D x (or_intror Hx)) ds' E (fun x Hx => D' x (or_intror Hx))) as [-> ->]. split; reflexivity. }
  destruct Q as [<- <-]. reflexivity.
Qed.

(** * Keys *)
Lemma stem_rev b : stem b -> forall c r, rev b = c :: r -> ~ 48 <= c <= 57.
Proof. intros (_ & _ & H) c r E. apply (H (rev r) c). rewrite <- (rev_involutive b), E. reflexivity. Qed.
Lemma takeKey_plain name : plain name -> takeKey name = Ok (0, false, name).
Proof.
  intros [H|(b & e & -> & S)]; unfold takeKey; [rewrite splitDash_none by exact H; reflexivity|].
  pose proof S as (Hn & Hd & Hs). rewrite splitDash_at by exact Hd. destruct b as [|c b]; [congruence|].
  pose proof (scanKey_at [] (rev (c :: b)) 0 1 ltac:(unfold two32; lia) ltac:(intros x []) (stem_rev _ S)) as Q. cbn [app] in Q. rewrite Q.
  destruct (rev (c :: b)) as [|x y] eqn:E; [apply (f_equal (@length _)) in E; rewrite rev_length in E; discriminate|]. rewrite <- E, rev_length, Nat.eqb_refl. reflexivity.
Qed.
Lemma takeKey_with b e ds : stem b -> digitsOnly ds -> ds <> [] -> 1 <= decimal ds mod two32 <= 256 ->
  takeKey (b ++ ds ++ 45 :: e) = Ok (decimal ds mod two32 - 1, true, b ++ 45 :: e).
Proof.
  intros S D N B. pose proof S as (Hn & Hd & Hs). unfold takeKey. rewrite app_assoc, splitDash_at.
  2:{ intros Q. apply in_app_or in Q. destruct Q as [Q|Q]; [auto|]. apply D in Q. lia. }
  destruct (b ++ ds) as [|c t] eqn:E; [destruct b; [congruence|discriminate]|]. rewrite <- E.
  rewrite rev_app_distr. pose proof (scanKey_at (rev ds) (rev b) 0 1 ltac:(unfold two32; lia) (digitsOnly_rev _ D) (stem_rev _ S)) as Q. rewrite Q.
  rewrite <- decimal_rev, rev_involutive, Z.mul_1_l, Z.add_0_l.
  destruct (rev b) as [|x y] eqn:E2; [apply (f_equal (@length _)) in E2; rewrite rev_length in E2; destruct b; [congruence|discriminate]|]. rewrite <- E2, rev_length, app_length.
  replace (length b =? length b + length ds)%nat with false by (symmetry; apply Nat.eqb_neq; destruct ds; [congruence|cbn; lia]).
  replace ((decimal ds mod two32 <? 1) || (keyMax <? decimal ds mod two32)) with false.
  - rewrite rev_involutive. reflexivity.
  - symmetry. apply Bool.orb_false_iff. split; apply Z.ltb_ge; unfold keyMax; lia.
Qed.
Lemma takeKey_sound written k ix name : takeKey written = Ok (k, ix, name) ->
  if ix then exists ds, withKey name ds written /\ ds <> [] /\ digitsOnly ds /\ k = decimal ds mod two32 - 1 /\ 0 <= k < 256
  else k = 0 /\ name = written /\ plain name.
Proof.
  unfold takeKey. pose proof (splitDash_spec written) as Q. destruct (splitDash written) as [[b e]|].
  2:{ intros E. injection E as <- <- <-. split; [reflexivity|]. split; [reflexivity|]. left. exact Q. }
  destruct Q as (-> & Hd & e' & ->). destruct b as [|c b]; [discriminate|]. set (w := c :: b) in *.
  destruct (scanKey_spec (rev w) 0 1 ltac:(unfold two32; lia)) as (ds & rest & E & D & R & ->). rewrite Z.mul_1_l, Z.add_0_l.
  destruct rest as [|x y] eqn:Er; [discriminate|]. rewrite <- Er in *.
  assert (Ew : w = rev rest ++ rev ds) by (rewrite <- rev_app_distr, <- E, rev_involutive; reflexivity).
  assert (S : stem (rev rest)).
  { split; [rewrite Er; cbn; intros Q; destruct (rev y); discriminate|]. split.
    - intros Q. apply Hd. rewrite Ew. apply in_or_app. left. exact Q.
    - intros u v Q. apply (R v (rev u)). rewrite <- (rev_involutive rest), Q, rev_app_distr. reflexivity. }
  destruct (Nat.eqb_spec (length rest) (length w)) as [L|L].
  - intros Q. injection Q as <- <- <-. split; [reflexivity|]. split; [reflexivity|]. right.
    assert (ds = []) as -> by (rewrite Ew, app_length, !rev_length in L; destruct ds; [reflexivity|cbn in L; lia]).
    cbn in Ew. rewrite app_nil_r in Ew. exists w, e'. split; [reflexivity|]. rewrite Ew. exact S.
  - destruct ((decR ds mod two32 <? 1) || (keyMax <? decR ds mod two32)) eqn:B; [discriminate|]. intros Q. injection Q as <- <- <-.
    apply Bool.orb_false_iff in B. destruct B as [B1 B2]. apply Z.ltb_ge in B1, B2. unfold keyMax in B2.
    exists (rev ds). split; [exists (rev rest), e'; split; [reflexivity|]; split; [|exact S]; rewrite app_assoc, <- Ew; reflexivity|].
    split; [|split; [apply digitsOnly_rev; exact D|split; [rewrite decimal_rev; reflexivity|lia]]].
    intros Q. apply L. rewrite Ew, Q, app_nil_r, rev_length. reflexivity.
Qed.

(** * Searches *)
Lemma names_holds names : StronglySorted slt names -> holds (mkLst (map Some names) 0 (length names) OAsc cmpStr) names.
Proof.
  intros S. split; [exists [], []; cbn; rewrite app_nil_r; split; reflexivity|]. split; [reflexivity|]. intros _. cbn.
  induction S as [|x l S IH F]; constructor; [exact IH|]. rewrite Forall_forall in *. intros y Hy. unfold cmpStr. rewrite (F y Hy). lia.
Qed.
Lemma cmpStr_zero a b : cmpStr a b = 0 <-> a = b.
Proof. unfold cmpStr. pose proof (strCmp_eq a b) as [E1 E2]. destruct (strCmp a b) eqn:E; [split; auto| |]; (split; [discriminate|intros Q; specialize (E2 Q); discriminate]). Qed.
Lemma search_sound names name : StronglySorted slt names ->
  exists r, searchName names name = Ok r /\ match r with Some i => nth_error names i = Some name | None => ~ In name names end.
Proof.
  intros S. pose proof (names_holds names S) as H. pose proof H as (_ & _ & Hs). specialize (Hs cmpStr_order).
  destruct (bsearch_ok cmpStr _ names name cmpStr_order H Hs (length names) 0%nat (length names)) as (r & E & Hr); [lia|lia| |].
  - intros j y Hj [L|L]; [lia|]. assert (j < length names)%nat by (apply nth_error_Some; congruence). lia.
  - exists r. split; [exact E|]. destruct r as [i|].
    + destruct Hr as (y & H1 & H2). apply cmpStr_zero in H2. subst. exact H1.
    + intros K. exact (Hr name K (proj2 (cmpStr_zero name name) eq_refl)).
Qed.
Lemma sorted_nodup names : StronglySorted slt names -> NoDup names.
Proof.
  induction 1 as [|x l S IH F]; constructor; [|exact IH]. intros K. rewrite Forall_forall in F. exact (slt_irrefl x (F x K)).
Qed.
Lemma search_at names i name : StronglySorted slt names -> nth_error names i = Some name -> searchName names name = Ok (Some i).
Proof.
  intros S E. destruct (search_sound names name S) as (r & -> & H). destruct r as [j|].
  - f_equal. f_equal. apply (proj1 (NoDup_nth_error names) (sorted_nodup _ S)); [apply nth_error_Some; congruence|congruence].
  - exfalso. apply H. apply nth_error_In in E. exact E.
Qed.
Lemma partials_in names name : forall i j, In j (partials i names name) <-> exists n, (i <= j)%nat /\ nth_error names (j - i) = Some n /\ strBeginsWith n name = true.
Proof.
  induction names as [|n names IH]; intros i j; cbn [partials].
  - split; [intros []|]. intros (n & _ & H & _). destruct (j - i)%nat; discriminate.
  - assert (Q : In j (partials (S i) names name) <-> exists m, (S i <= j)%nat /\ nth_error (n :: names) (j - i) = Some m /\ strBeginsWith m name = true).
    { rewrite IH. split; intros (m & H1 & H2 & H3); exists m; (split; [exact H1|split; [|exact H3]]); replace (j - i)%nat with (S (j - S i)) in * by lia; exact H2. }
    destruct (strBeginsWith n name) eqn:E; cbn [In]; rewrite Q; split.
    + intros [<-|(m & H1 & H2 & H3)]; [exists n; rewrite Nat.sub_diag; split; [lia|split; [reflexivity|exact E]]|exists m; split; [lia|split; assumption]].
    + intros (m & H1 & H2 & H3). destruct (Nat.eq_dec i j) as [->|N]; [left; reflexivity|]. right. exists m. split; [lia|split; assumption].
    + intros (m & H1 & H2 & H3). exists m. split; [lia|split; assumption].
    + intros (m & H1 & H2 & H3). exists m. split; [|split; assumption]. destruct (Nat.eq_dec i j) as [->|N]; [|lia]. rewrite Nat.sub_diag in H2. cbn in H2. congruence.
Qed.
Lemma onePartial_spec names name i : onePartial names name = Some i ->
  exists n, nth_error names i = Some n /\ strBeginsWith n name = true /\ forall j m, nth_error names j = Some m -> strBeginsWith m name = true -> j = i.
Proof.
  unfold onePartial. intros E. destruct (partials 0 names name) as [|k [|k2 t]] eqn:P; [discriminate| |discriminate]. injection E as ->.
  pose proof (proj1 (partials_in names name 0 i)) as H. rewrite P in H. destruct (H (or_introl eq_refl)) as (n & _ & H1 & H2). rewrite Nat.sub_0_r in H1.
  exists n. split; [exact H1|]. split; [exact H2|]. intros j m Hj Hm. pose proof (proj2 (partials_in names name 0 j)) as K. rewrite P, Nat.sub_0_r in K.
  destruct K as [<-|[]]; [exists m; split; [lia|split; assumption]|reflexivity].
Qed.
