From Verif Require Import Base Str ManifestModel LinkCheckModel LinkCheckSpec.
From Coq Require Import Sorted Permutation.
Open Scope Z_scope.

Definition pre (p q : str) : Prop := exists r, q = p ++ r.
Lemma begins_iff a p : strBeginsWith a p = true <-> pre p a.
Proof.
  unfold strBeginsWith, pre. rewrite strEqb_eq. split.
  - intros E. exists (skipn (length p) a). rewrite <- E at 1. symmetry. apply firstn_skipn.
  - intros [r ->]. rewrite firstn_app, firstn_all, Nat.sub_diag. cbn. apply app_nil_r.
Qed.
Lemma begins_iff_false a p : strBeginsWith a p = false <-> ~ pre p a.
Proof. rewrite <- begins_iff. destruct (strBeginsWith a p); split; congruence. Qed.
Lemma pre_refl p : pre p p.
Proof. exists []. now rewrite app_nil_r. Qed.
Lemma pre_trans a b c : pre a b -> pre b c -> pre a c.
Proof. intros [r ->] [s ->]. exists (r ++ s). now rewrite app_assoc. Qed.
Lemma pre_sle p q : pre p q -> sle p q.
Proof.
  intros [r ->]. unfold sle. induction p as [|x p IH]; cbn; [destruct r; discriminate|]. rewrite Z.compare_refl. exact IH.
Qed.
Lemma pre_antisym p q : pre p q -> pre q p -> p = q.
Proof. intros A B. apply sle_antisym; apply pre_sle; assumption. Qed.
(** Between a string and one that begins with it there are only such that begin with it *)
Lemma pre_between p r q : pre p q -> sle p r -> sle r q -> pre p r.
Proof.
  intros [s ->]. revert r. induction p as [|x p IH]; intros r A B; [exists r; reflexivity|].
  destruct r as [|y r]; [unfold sle in A; cbn in A; congruence|].
  unfold sle in A, B. cbn in A, B.
  destruct (Z.compare_spec x y) as [E|E|E]; [subst y| |congruence].
  - rewrite Z.compare_refl in B. destruct (IH r A B) as [t ->]. exists t. reflexivity.
  - destruct (Z.compare_spec y x); [lia|lia|congruence].
Qed.

(** * The list *)
Definition lsorted (l : list litem) : Prop := ssorted (map liPath l).
Definition free (l : list litem) : Prop :=
  forall a b, In a l -> In b l -> liFile a = None -> liFile b = None -> pre (liPath a) (liPath b) -> a = b.

Lemma lsorted_app l1 i l2 : lsorted (l1 ++ i :: l2) ->
  (forall a, In a l1 -> slt (liPath a) (liPath i)) /\ (forall a, In a l2 -> slt (liPath i) (liPath a)) /\ lsorted l1 /\ lsorted l2.
Proof.
  unfold lsorted. rewrite map_app. cbn. intros H. apply StronglySorted_app_inv in H as (H1 & H2 & H3).
  inversion H2 as [|? ? H4 H5]; subst. rewrite Forall_forall in H5. repeat split; auto.
  - intros a Ha. apply H3; [now apply in_map|now left].
  - intros a Ha. apply H5. now apply in_map.
Qed.
Lemma findIdx_split p l k : findIdx p l = Some k -> exists i, liPath i = p /\ l = firstn k l ++ i :: skipn (S k) l.
Proof.
  revert k. induction l as [|i l IH]; intros k; [discriminate|]. cbn [findIdx].
  destruct (strEqb_spec (liPath i) p).
  - intros [= <-]. exists i. split; [assumption|]. reflexivity.
  - destruct (findIdx p l) as [k'|] eqn:E; [|discriminate]. intros [= <-]. destruct (IH _ eq_refl) as (j & Hj & El).
    exists j. split; [exact Hj|]. cbn [firstn skipn app]. f_equal. exact El.
Qed.
Lemma findIdx_in p l : In p (map liPath l) -> findIdx p l <> None.
Proof.
  induction l as [|i l IH]; [intros []|]. cbn. destruct (strEqb_spec (liPath i) p); [discriminate|].
  intros [H|H]; [congruence|]. destruct (findIdx p l); [discriminate|now elim IH].
Qed.

(** The nearest path link before decides whether any is a parent *)
Lemma checkNext_prior p l (Hs : lsorted l) (Hlt : forall a, In a l -> slt (liPath a) p) (Hf : free l) :
  checkNext (fun q => strBeginsWith p q) (rev l) = true <-> (forall a, In a l -> liFile a = None -> ~ pre (liPath a) p).
Proof.
  induction l as [|x l IH] using rev_ind; [cbn; split; [intros _ ? []|reflexivity]|].
  apply lsorted_app in Hs as (Hx & _ & Hl & _).
  assert (Hf' : free l) by (intros a b Ha Hb; apply Hf; apply in_or_app; now left).
  specialize (IH Hl (fun a Ha => Hlt a (in_or_app _ _ _ (or_introl Ha))) Hf').
  rewrite rev_app_distr. cbn [rev app checkNext]. destruct (liFile x) as [f|] eqn:Ex.
  - rewrite IH. split; intros H a Ha E.
    + apply in_app_or in Ha as [Ha|[<-|[]]]; [auto|congruence].
    + apply H; [apply in_or_app; now left|exact E].
  - rewrite negb_true_iff, begins_iff_false. split; intros H.
    + intros a Ha E Hp. apply in_app_or in Ha as [Ha|[<-|[]]]; [|contradiction].
      assert (a = x) as ->.
      { apply Hf; auto; [apply in_or_app; now left|apply in_or_app; right; now left|].
        apply (pre_between _ _ p Hp); apply slt_le; [auto|]. apply Hlt, in_or_app. right. now left. }
      exact (slt_irrefl _ (Hx _ Ha)).
    + apply H; [apply in_or_app; right; now left|exact Ex].
Qed.
Lemma checkNext_next p l (Hs : lsorted l) (Hlt : forall a, In a l -> slt p (liPath a)) :
  checkNext (fun q => strBeginsWith q p) l = true <-> (forall a, In a l -> liFile a = None -> ~ pre p (liPath a)).
Proof.
  induction l as [|x l IH]; [cbn; split; [intros _ ? []|reflexivity]|].
  pose proof (lsorted_app [] x l Hs) as (_ & Hx & _ & Hl).
  specialize (IH Hl (fun a Ha => Hlt a (or_intror Ha))). cbn [checkNext]. destruct (liFile x) as [f|] eqn:Ex.
  - rewrite IH. split; intros H a Ha E.
    + destruct Ha as [<-|Ha]; [congruence|auto].
    + apply H; [now right|exact E].
  - rewrite negb_true_iff, begins_iff_false. split; intros H.
    + intros a [<-|Ha] E Hp; [contradiction|]. apply H.
      apply (pre_between _ _ _ Hp); apply slt_le; [apply Hlt; now left|auto].
    + apply H; [now left|exact Ex].
Qed.

(** * One step *)
Lemma sorted_nodup l : StronglySorted (keyLe liPath strLeb) l -> NoDup (map liPath l) -> lsorted l.
Proof.
  unfold lsorted, ssorted. induction 1 as [|x r Hr IH Hx]; intros N; [constructor|]. cbn in N |- *. inversion N as [|? ? N1 N2]; subst.
  constructor; [auto|]. apply Forall_forall. intros z Hz. apply in_map_iff in Hz as (w & <- & Hw).
  rewrite Forall_forall in Hx. specialize (Hx w Hw). unfold keyLe in Hx. apply strLeb_le, sle_lt_eq in Hx as [Hx|Hx]; [exact Hx|].
  elim N1. rewrite Hx. now apply in_map.
Qed.
Lemma sorted_add l i : lsorted l -> ~ In (liPath i) (map liPath l) -> lsorted (sortBy liPath strLeb (l ++ [i])).
Proof.
  intros Hs Hn. apply sorted_nodup; [exact (sortBy_sorted liPath strLeb strLeb_total strLeb_trans (l ++ [i]))|].
  apply (Permutation_NoDup (l := map liPath (i :: l))).
  - apply Permutation_map. apply Permutation_sym. etransitivity; [apply sortBy_perm|]. apply Permutation_sym, Permutation_cons_append.
  - cbn. constructor; [exact Hn|]. apply ssorted_NoDup, Hs.
Qed.

(** Conditions under which a link is accepted, given the list *)
Definition stepOk (base : str) (l : list litem) (p : str) (f : option str) : Prop :=
  ~ inDir base p /\
  (forall i, In i l -> liPath i = p ++ [47] -> exists a b, liFile i = Some a /\ f = Some b /\ a <> b) /\
  (f = None -> forall i, In i l -> liFile i = None -> ~ pre (liPath i) (p ++ [47]) /\ ~ pre (p ++ [47]) (liPath i)).
Definition added (l : list litem) (p : str) (f : option str) (l' : list litem) : Prop :=
  (In (p ++ [47]) (map liPath l) -> l' = l) /\ (~ In (p ++ [47]) (map liPath l) -> forall i, In i l' <-> i = mkLitem (p ++ [47]) f \/ In i l).
Definition inv (l : list litem) : Prop := lsorted l /\ free l.

Lemma stepOk_intro base l p f : ~ inDir base p ->
  (In (p ++ [47]) (map liPath l) -> exists i a b, In i l /\ liPath i = p ++ [47] /\ liFile i = Some a /\ f = Some b /\ a <> b) -> inv l ->
  (~ In (p ++ [47]) (map liPath l) -> f = None -> forall i, In i l -> liFile i = None -> ~ pre (liPath i) (p ++ [47]) /\ ~ pre (p ++ [47]) (liPath i)) ->
  stepOk base l p f.
Proof.
  intros H1 H2 [Hs Hf] H3. split; [exact H1|]. split.
  - intros i Hi E. destruct H2 as (j & a & b & Hj & Ej & Fj & Ef & Hab); [rewrite <- E; now apply in_map|].
    assert (i = j) as ->; [|eauto]. clear -Hs Hi Hj E Ej. rewrite <- E in Ej. clear E.
    apply ssorted_NoDup in Hs. revert i j Hi Hj Ej. induction l as [|x l IH]; intros i j Hi Hj E; [destruct Hi|].
    cbn in Hs. inversion Hs as [|? ? N1 N2]; subst. destruct Hi as [<-|Hi], Hj as [<-|Hj]; auto.
    + elim N1. rewrite <- E. now apply in_map.
    + elim N1. rewrite E. now apply in_map.
  - intros Ef. destruct (in_dec str_dec (p ++ [47]) (map liPath l)) as [Hi|Hn]; [|auto].
    destruct (H2 Hi) as (j & a & b & _ & _ & _ & E & _). congruence.
Qed.

Lemma find_item path l : match find (fun i => strEqb (liPath i) path) l with
  | Some i => In i l /\ liPath i = path
  | None => ~ In path (map liPath l) end.
Proof.
  destruct (find _ l) as [i|] eqn:E.
  - apply find_some in E as [A B]. apply strEqb_eq in B. auto.
  - intros H. apply in_map_iff in H as (i & Ei & Hi). pose proof (find_none _ _ E _ Hi) as F. cbn in F. apply strEqb_neq in F. auto.
Qed.

Section Check.
Variables (ts : list mtarget) (tb : mtarget) (base : str).
Hypothesis (Htb : manifestTargetFind ts pgData = Ok tb) (Hbase : manifestTargetPath ts tb = Ok base).

Lemma inDir_pre a b : inDir a b <-> pre (a ++ [47]) (b ++ [47]).
Proof. reflexivity. Qed.

Lemma one_link l t p : inv l -> mtIsPath t = false -> manifestTargetPath ts t = Ok p ->
  (forall l', manifestLinkCheckOne ts l t = Ok l' -> stepOk base l p (mtFile t) /\ inv l' /\ added l p (mtFile t) l') /\
  (stepOk base l p (mtFile t) -> exists l', manifestLinkCheckOne ts l t = Ok l').
Proof.
  intros Hl Et Ep. unfold manifestLinkCheckOne. rewrite Et, Ep. cbn [bind]. rewrite Htb. cbn [bind]. rewrite Hbase. cbn [bind].
  destruct (strBeginsWith (p ++ [47]) (base ++ [47])) eqn:Eb.
  { apply begins_iff in Eb. split; [discriminate|]. intros [H _]. now elim H. }
  apply begins_iff_false in Eb. change (~ inDir base p) in Eb.
  pose proof (find_item (p ++ [47]) l) as Hfi. destruct (find _ l) as [i|].
  - destruct Hfi as [Hi Ei]. destruct (mtFile t) as [f|] eqn:Ef; [destruct (liFile i) as [g|] eqn:Eg|].
    + destruct (strEqb_spec f g) as [E|E].
      * split; [discriminate|]. intros (_ & H & _). destruct (H i Hi Ei) as (a & b & A & B & C). congruence.
      * split; [intros l' [= <-]|eauto]. split; [|split; [exact Hl|]].
        -- apply stepOk_intro; auto. intros _. exists i, g, f. auto 10. intros _ [=].
        -- split; [auto|]. intros H. elim H. rewrite <- Ei. now apply in_map.
    + split; [discriminate|]. intros (_ & H & _). destruct (H i Hi Ei) as (a & b & A & B & C). congruence.
    + split; [discriminate|]. intros (_ & H & _). destruct (H i Hi Ei) as (a & b & A & B & C). congruence.
  - set (it := mkLitem (p ++ [47]) (mtFile t)). set (l2 := sortBy liPath strLeb (l ++ [it])).
    destruct Hl as [Hs Hf].
    assert (Hs2 : lsorted l2) by (apply sorted_add; assumption).
    assert (Hin : forall j, In j l2 <-> j = it \/ In j l).
    { intros j. unfold l2. rewrite sortBy_in, in_app_iff. cbn. split; [intros [|[|[]]]|intros [|]]; auto. }
    assert (Hadd : added l p (mtFile t) l2) by (split; [contradiction|intros _; exact Hin]).
    destruct (findIdx (p ++ [47]) l2) as [k|] eqn:Ek.
    2:{ exfalso. apply findIdx_in in Ek; [exact Ek|]. change (p ++ [47]) with (liPath it). apply in_map, Hin. now left. }
    apply findIdx_split in Ek as (j & Ej & El). pose proof Hs2 as Hs2'. rewrite El in Hs2'.
    apply lsorted_app in Hs2' as (Hlt & Hgt & Hsa & Hsb). rewrite Ej in Hlt, Hgt.
    assert (Hin2 : forall a, In a l <-> In a (firstn k l2) \/ In a (skipn (S k) l2)).
    { intros a. assert (Hj : j = it).
      { assert (In j l2) as Hj by (rewrite El; apply in_or_app; right; now left). apply Hin in Hj as [Hj|Hj]; [exact Hj|].
        elim Hfi. rewrite <- Ej. now apply in_map. }
      split; intros Ha.
      - assert (In a l2) as Ha2 by (apply Hin; now right). rewrite El in Ha2. apply in_app_or in Ha2 as [H|[H|H]]; auto.
        exfalso. apply Hfi. rewrite <- Ej, H. now apply in_map.
      - assert (In a l2) as Ha2 by (rewrite El; apply in_or_app; destruct Ha; [now left|right; now right]).
        apply Hin in Ha2 as [->|Ha2]; [|exact Ha2]. exfalso. destruct Ha as [Ha|Ha].
        + exact (slt_irrefl _ (Hlt _ Ha)).
        + exact (slt_irrefl _ (Hgt _ Ha)). }
    destruct (mtFile t) as [f|] eqn:Ef.
    { split; [intros l' [= <-]|eauto]. split; [|split; [split; [exact Hs2|]|exact Hadd]].
      - apply stepOk_intro; auto; [contradiction|split; auto|intros _ [=]].
      - intros a b Ha Hb Fa Fb. apply Hin in Ha as [->|Ha]; [discriminate Fa|]. apply Hin in Hb as [->|Hb]; [discriminate Fb|]. auto. }
    assert (Hfa : free (firstn k l2)) by (intros a b Ha Hb; apply Hf; apply Hin2; auto).
    pose proof (checkNext_prior (p ++ [47]) _ Hsa Hlt Hfa) as HP. pose proof (checkNext_next (p ++ [47]) _ Hsb Hgt) as HN.
    assert (Hiff : (forall a, In a (firstn k l2) -> liFile a = None -> ~ pre (liPath a) (p ++ [47])) /\
                   (forall a, In a (skipn (S k) l2) -> liFile a = None -> ~ pre (p ++ [47]) (liPath a)) <->
                   (forall a, In a l -> liFile a = None -> ~ pre (liPath a) (p ++ [47]) /\ ~ pre (p ++ [47]) (liPath a))).
    { split.
      - intros [A B] a Ha Fa. apply Hin2 in Ha as [Ha|Ha]; split; auto; intros C.
        + apply pre_sle in C. apply Hlt in Ha. apply (slt_irrefl (p ++ [47])). eapply sle_slt_trans; eauto.
        + apply pre_sle in C. apply Hgt in Ha. apply (slt_irrefl (p ++ [47])). eapply slt_le_trans; eauto.
      - intros A. split; intros a Ha Fa; apply A; auto; apply Hin2; auto. }
    destruct (checkNext _ (rev _)) eqn:E1; cbn [negb].
    2:{ split; [discriminate|]. intros (_ & _ & H). exfalso. apply Bool.diff_false_true. apply HP. apply Hiff. auto. }
    destruct (checkNext _ (skipn _ _)) eqn:E2; cbn [negb].
    2:{ split; [discriminate|]. intros (_ & _ & H). exfalso. apply Bool.diff_false_true. apply HN. apply Hiff. auto. }
    assert (Hall := proj1 Hiff (conj (proj1 HP eq_refl) (proj1 HN eq_refl))).
    split; [intros l' [= <-]|eauto]. split; [|split; [split; [exact Hs2|]|exact Hadd]].
    + apply stepOk_intro; auto; [contradiction|split; auto].
    + intros a b Ha Hb Fa Fb Hp. apply Hin in Ha as [->|Ha]; apply Hin in Hb as [->|Hb]; auto.
      * destruct (Hall b Hb Fb) as [_ H]. now elim H.
      * destruct (Hall a Ha Fa) as [H _]. now elim H.
Qed.
End Check.

(** * All links *)
Definition firstAt (ds : list (str * option str)) (i : nat) (p : str) : Prop := forall k q h, (k < i)%nat -> nth_error ds k = Some (q, h) -> q <> p.
Definition rel (ds : list (str * option str)) (l : list litem) : Prop :=
  forall i, In i l <-> exists k p, nth_error ds k = Some (p, liFile i) /\ liPath i = p ++ [47] /\ firstAt ds k p.
Definition condLast (base : str) (ds : list (str * option str)) (p : str) (f : option str) : Prop :=
  ~ inDir base p /\
  forall i q g, nth_error ds i = Some (q, g) ->
    (q = p -> exists a b, g = Some a /\ f = Some b /\ (firstAt ds i q -> a <> b)) /\
    (g = None -> f = None -> ~ inDir q p /\ ~ inDir p q).

Lemma nth_error_snoc {A} (l : list A) x k y :
  nth_error (l ++ [x]) k = Some y <-> nth_error l k = Some y \/ (k = length l /\ x = y).
Proof.
  destruct (Nat.lt_trichotomy k (length l)) as [H|[H|H]].
  - rewrite nth_error_app1 by exact H. split; [auto|]. intros [E|[E _]]; [exact E|lia].
  - subst k. rewrite nth_error_app2, Nat.sub_diag by lia. cbn.
    assert (nth_error l (length l) = None) as N by (apply nth_error_None; lia). rewrite N. split.
    + intros [= ->]. right. auto.
    + intros [[=]|[_ ->]]. reflexivity.
  - assert (nth_error (l ++ [x]) k = None) as N1 by (apply nth_error_None; rewrite app_length; cbn; lia).
    assert (nth_error l k = None) as N2 by (apply nth_error_None; lia). rewrite N1, N2. split; [discriminate|].
    intros [[=]|[E _]]. lia.
Qed.
Lemma nth_error_lt {A} (l : list A) k y : nth_error l k = Some y -> (k < length l)%nat.
Proof. intros H. apply nth_error_Some. congruence. Qed.
Lemma firstAt_snoc ds e i p : (i <= length ds)%nat -> firstAt (ds ++ [e]) i p <-> firstAt ds i p.
Proof.
  intros Hi. split; intros H k q h Hk E; apply (H k q h Hk).
  - apply nth_error_snoc. now left.
  - apply nth_error_snoc in E as [E|[E _]]; [exact E|lia].
Qed.

Lemma checked_snoc base ds p f : checked base (ds ++ [(p, f)]) <-> checked base ds /\ condLast base ds p f.
Proof.
  split.
  - intros [A B]. split; split.
    + intros q g H. apply A with g. apply in_or_app. now left.
    + intros i j q r g h Hij E1 E2. destruct (B i j q r g h Hij) as [C D].
      { apply nth_error_snoc. now left. } { apply nth_error_snoc. now left. }
      split; [|exact D]. intros Epq. destruct (C Epq) as (a & b & Ea & Eb & Hab). exists a, b. split; [exact Ea|]. split; [exact Eb|].
      intros Hf. apply Hab. change (firstAt (ds ++ [(p, f)]) i q). apply firstAt_snoc; [apply nth_error_lt in E1; lia|exact Hf].
    + apply A with f. apply in_or_app. right. now left.
    + intros i q g E. pose proof (nth_error_lt _ _ _ E) as Hi. destruct (B i (length ds) q p g f Hi) as [C D].
      { apply nth_error_snoc. now left. } { apply nth_error_snoc. now right. }
      split; [|exact D]. intros Epq. destruct (C Epq) as (a & b & Ea & Eb & Hab). exists a, b. split; [exact Ea|]. split; [exact Eb|].
      intros Hf. apply Hab. change (firstAt (ds ++ [(p, f)]) i q). apply firstAt_snoc; [lia|exact Hf].
  - intros [[A B] [C D]]. split.
    + intros q g H. apply in_app_or in H as [H|[[= <- <-]|[]]]; [apply (A q g H)|exact C].
    + intros i j q r g h Hij E1 E2. apply nth_error_snoc in E1 as [E1|[E1 X1]].
      2:{ apply nth_error_lt in E2. rewrite app_length in E2. cbn in E2. lia. }
      pose proof (nth_error_lt _ _ _ E1) as Hi.
      apply nth_error_snoc in E2 as [E2|[E2 [= <- <-]]].
      * destruct (B i j q r g h Hij E1 E2) as [X Y]. split; [|exact Y]. intros Epq. destruct (X Epq) as (a & b & Ea & Eb & Hab).
        exists a, b. split; [exact Ea|]. split; [exact Eb|]. intros Hf. apply Hab.
        change (firstAt (ds ++ [(p, f)]) i q) in Hf. apply firstAt_snoc in Hf; [exact Hf|lia].
      * destruct (D i q g E1) as [X Y]. split; [|exact Y]. intros Epq. destruct (X Epq) as (a & b & Ea & Eb & Hab).
        exists a, b. split; [exact Ea|]. split; [exact Eb|]. intros Hf. apply Hab.
        change (firstAt (ds ++ [(p, f)]) i q) in Hf. apply firstAt_snoc in Hf; [exact Hf|lia].
Qed.
Lemma checked_app base ds es : checked base (ds ++ es) -> checked base ds.
Proof.
  revert ds. induction es as [|[p f] es IH]; intros ds; [now rewrite app_nil_r|].
  intros H. change ((p, f) :: es) with ([(p, f)] ++ es) in H. rewrite app_assoc in H. apply IH, checked_snoc in H. apply H.
Qed.

Lemma firstAt_exists ds p f k : nth_error ds k = Some (p, f) -> exists j g, (j <= k)%nat /\ nth_error ds j = Some (p, g) /\ firstAt ds j p.
Proof.
  revert f. induction k as [k IH] using lt_wf_ind. intros f E.
  destruct (existsb (fun e => strEqb (fst e) p) (firstn k ds)) eqn:X.
  - apply existsb_exists in X as ([q g] & Hin & Eq). cbn in Eq. apply strEqb_eq in Eq. subst q.
    apply In_nth_error in Hin as [j Hj]. assert (j < k)%nat as Hjk.
    { pose proof (nth_error_lt _ _ _ Hj) as L. rewrite firstn_length in L. lia. }
    assert (nth_error ds j = Some (p, g)) as Hj2.
    { rewrite <- (firstn_skipn k ds). rewrite nth_error_app1; [exact Hj|]. now apply nth_error_lt in Hj. }
    destruct (IH j Hjk g Hj2) as (i & h & A & B & C). exists i, h. split; [lia|auto].
  - exists k, f. split; [lia|]. split; [exact E|]. intros j q h Hj E2 ->.
    assert (X2 : existsb (fun e => strEqb (fst e) p) (firstn k ds) = true).
    { apply existsb_exists. exists (p, h). split; [|cbn; apply strEqb_refl].
      apply nth_error_In with j. rewrite <- (firstn_skipn k ds) in E2. rewrite nth_error_app1 in E2; [exact E2|].
      rewrite firstn_length. apply nth_error_lt in E. lia. }
    congruence.
Qed.

Lemma snoc_inj (a b : str) : a ++ [47] = b ++ [47] -> a = b.
Proof. apply app_inv_tail. Qed.

Lemma rel_paths ds l p : rel ds l -> In (p ++ [47]) (map liPath l) <-> exists f, In (p, f) ds.
Proof.
  intros R. split.
  - intros H. apply in_map_iff in H as (i & E & Hi). apply R in Hi as (k & q & E1 & E2 & _). rewrite E in E2. apply snoc_inj in E2. subst q.
    exists (liFile i). now apply nth_error_In in E1.
  - intros [f Hf]. apply In_nth_error in Hf as [k Ek]. destruct (firstAt_exists _ _ _ _ Ek) as (j & g & _ & Ej & Fj).
    change (p ++ [47]) with (liPath (mkLitem (p ++ [47]) g)). apply in_map. apply R. exists j, p. auto.
Qed.

Lemma step_cond base ds l p f : rel ds l -> checked base ds -> stepOk base l p f <-> condLast base ds p f.
Proof.
  intros R [K1 K2]. split.
  - intros (A & B & C). split; [exact A|]. intros i q g E.
    destruct (firstAt_exists _ _ _ _ E) as (j & h & Hji & Ej & Fj).
    assert (Hit : In (mkLitem (q ++ [47]) h) l) by (apply R; exists j, q; auto).
    split.
    + intros ->. destruct (B _ Hit eq_refl) as (a & b & Ea & Eb & Hab). cbn in Ea. subst h.
      destruct (Nat.eq_dec j i) as [->|Hne].
      * rewrite E in Ej. injection Ej as ->. exists a, b. auto.
      * destruct (K2 j i p p (Some a) g ltac:(lia) Ej E) as [X _]. destruct (X eq_refl) as (a' & b' & E1 & E2 & _). exists b', b.
        split; [exact E2|]. split; [exact Eb|]. intros Hf. exfalso. apply (Hf j p (Some a)); [lia|exact Ej|reflexivity].
    + intros -> ->.
      destruct (Nat.eq_dec j i) as [->|Hne].
      * rewrite E in Ej. injection Ej as <-. destruct (C eq_refl _ Hit eq_refl) as [X Y]. auto.
      * destruct (K2 j i q q h None ltac:(lia) Ej E) as [X _]. destruct (X eq_refl) as (a' & b' & E1 & E2 & _). discriminate E2.
  - intros [A B]. split; [exact A|]. split.
    + intros i Hi Ei. apply R in Hi as (k & q & E1 & E2 & E3). rewrite Ei in E2. apply snoc_inj in E2. subst q.
      destruct (B _ _ _ E1) as [X _]. destruct (X eq_refl) as (a & b & Ea & Eb & Hab). exists a, b. auto.
    + intros -> i Hi Fi. apply R in Hi as (k & q & E1 & E2 & E3). destruct (B _ _ _ E1) as [_ Y]. rewrite E2. apply Y; auto.
Qed.

Lemma rel_step ds l p f l' : rel ds l -> added l p f l' -> rel (ds ++ [(p, f)]) l'.
Proof.
  intros R [A B] i. destruct (in_dec str_dec (p ++ [47]) (map liPath l)) as [Hin|Hn].
  - rewrite (A Hin), (R i). split; intros (k & q & E1 & E2 & E3).
    + exists k, q. split; [apply nth_error_snoc; now left|]. split; [exact E2|]. apply firstAt_snoc; [apply nth_error_lt in E1; lia|exact E3].
    + apply nth_error_snoc in E1 as [E1|[-> [= -> X]]].
      * exists k, q. split; [exact E1|]. split; [exact E2|]. apply firstAt_snoc in E3; [exact E3|apply nth_error_lt in E1; lia].
      * exfalso. apply (rel_paths _ _ _ R) in Hin as [g Hg]. apply In_nth_error in Hg as [j Hj].
        apply (E3 j q g); [apply nth_error_lt in Hj; exact Hj|apply nth_error_snoc; now left|reflexivity].
  - rewrite (B Hn i). split.
    + intros [->|Hi].
      * exists (length ds), p. cbn. split; [apply nth_error_snoc; now right|]. split; [reflexivity|]. apply firstAt_snoc; [lia|].
        intros k q h Hk E ->. apply Hn. apply (rel_paths _ _ _ R). exists h. now apply nth_error_In in E.
      * apply R in Hi as (k & q & E1 & E2 & E3). exists k, q. split; [apply nth_error_snoc; now left|]. split; [exact E2|].
        apply firstAt_snoc; [apply nth_error_lt in E1; lia|exact E3].
    + intros (k & q & E1 & E2 & E3). apply nth_error_snoc in E1 as [E1|[-> [= -> X]]].
      * right. apply R. exists k, q. split; [exact E1|]. split; [exact E2|]. apply firstAt_snoc in E3; [exact E3|apply nth_error_lt in E1; lia].
      * left. destruct i as [ip ifl]. cbn in *. now subst.
Qed.

Lemma loop_exact ts tb base : manifestTargetFind ts pgData = Ok tb -> manifestTargetPath ts tb = Ok base ->
  forall todo ds es l, rel ds l -> inv l -> checked base ds ->
  Forall2 (fun t d => manifestTargetPath ts t = Ok (fst d) /\ mtFile t = snd d) (filter (fun t => negb (mtIsPath t)) todo) es ->
  (linkCheckLoop ts l todo = Ok tt <-> checked base (ds ++ es)).
Proof.
  intros Htb Hb todo. induction todo as [|t todo IH]; intros ds es l R Hl K F.
  - inversion F; subst. rewrite app_nil_r. cbn. split; auto.
  - cbn [filter] in F. cbn [linkCheckLoop]. destruct (mtIsPath t) eqn:Et; cbn [negb] in F.
    + unfold manifestLinkCheckOne. rewrite Et. cbn [bind]. now apply IH.
    + inversion F as [|? [p f] ? es' [Ep Ef] F']; subst. cbn in Ep, Ef.
      destruct (one_link ts tb base Htb Hb l t p Hl Et Ep) as [H1 H2]. rewrite Ef in *.
      change ((p, f) :: es') with ([(p, f)] ++ es'). rewrite app_assoc. split.
      * intros H. destruct (manifestLinkCheckOne ts l t) as [l'|e|] eqn:E; cbn [bind] in H; try discriminate.
        destruct (H1 _ eq_refl) as (A & B & C).
        apply (IH (ds ++ [(p, f)]) es' l'); auto; [now apply (rel_step _ l)|].
        apply checked_snoc. split; [exact K|]. now apply (step_cond base ds l).
      * intros H. pose proof (checked_app _ _ _ H) as K'. apply checked_snoc in K' as [_ K'].
        destruct H2 as [l' E]; [now apply (step_cond base ds l)|]. rewrite E. cbn [bind].
        destruct (H1 _ E) as (A & B & C).
        apply (IH (ds ++ [(p, f)]) es' l'); auto; [now apply (rel_step _ l)|].
        apply checked_snoc. split; [exact K|]. now apply (step_cond base ds l).
Qed.

Lemma check_exact ts tb base ds : manifestTargetFind ts pgData = Ok tb -> manifestTargetPath ts tb = Ok base -> isDests ts ds ->
  (manifestLinkCheck ts = Ok tt <-> checked base ds).
Proof.
  intros Htb Hb F. apply (loop_exact ts tb base Htb Hb ts [] ds []); auto.
  - intros i. split; [intros []|]. intros (k & p & E & _). destruct k; discriminate.
  - split; [constructor|intros a b []].
  - split; [intros p f []|]. intros i j p q f g _ E. destruct i; discriminate.
Qed.
Lemma check_not_ub_dests ts : manifestLinkCheck ts = Ok tt -> exists ds, isDests ts ds.
Proof.
  unfold manifestLinkCheck, isDests. assert (G : forall todo l, linkCheckLoop ts l todo = Ok tt -> exists ds,
    Forall2 (fun t d => manifestTargetPath ts t = Ok (fst d) /\ mtFile t = snd d) (filter (fun t => negb (mtIsPath t)) todo) ds).
  { induction todo as [|t todo IH]; intros l H; [exists []; constructor|]. cbn [linkCheckLoop filter] in *.
    destruct (manifestLinkCheckOne ts l t) as [l'| |] eqn:E; cbn [bind] in H; try discriminate. destruct (IH _ H) as [ds F].
    destruct (mtIsPath t) eqn:Et; cbn [negb]; [eauto|]. unfold manifestLinkCheckOne in E. rewrite Et in E.
    destruct (manifestTargetPath ts t) as [p| |] eqn:Ep; try discriminate. exists ((p, mtFile t) :: ds). constructor; [split; [exact Ep|reflexivity]|exact F]. }
  apply G.
Qed.

(** * Parts *)
Lemma craw_prefix a b : Forall good a -> Forall good b -> pre (pathOf a ++ [47]) (pathOf b ++ [47]) <-> exists r, b = a ++ r.
Proof.
  intros Ha; revert b. induction Ha as [|c a Hc Ha IH]; intros b Hb.
  - split; [intros _; exists b; reflexivity|]. intros _. destruct b as [|d b]; [exists []; reflexivity|]. unfold pathOf. cbn. exists (d ++ pathOf b ++ [47]).
    now rewrite <- app_assoc.
  - destruct Hb as [|d b Hd Hb].
    + split; [|intros [r E]; discriminate E]. intros [r E]. unfold pathOf in E. cbn in E. injection E as E.
      destruct Hc as [Hc _]. destruct c; [congruence|discriminate E].
    + assert (Hcut : forall x y u v, ~ In 47 x -> ~ In 47 y -> x ++ 47 :: u = y ++ 47 :: v -> x = y /\ u = v).
      { induction x as [|h x IHx]; intros [|k y] u v Hx Hy E; cbn in E.
        - injection E as ->. auto.
        - injection E as <- _. elim Hy. now left.
        - injection E as -> _. elim Hx. now left.
        - injection E as -> E. destruct (IHx y u v) as [-> ->]; [intros F; apply Hx; now right|intros F; apply Hy; now right|exact E|split; reflexivity]. }
      assert (Hsh : forall l, exists t, pathOf l ++ [47] = 47 :: t).
      { intros [|e l]; [exists []; reflexivity|]. exists (e ++ pathOf l ++ [47]). cbn. now rewrite <- app_assoc. }
      specialize (IH b Hb). cbn [pathOf map concat]. fold (pathOf a) (pathOf b). cbn [app]. rewrite <- !app_assoc.
      destruct (Hsh a) as [u Eu], (Hsh b) as [v Ev]. rewrite Eu, Ev in *. split.
      * intros [r E]. cbn in E. injection E as E. rewrite <- app_assoc in E. cbn in E.
        apply Hcut in E as [-> E]; [|apply Hd|apply Hc]. destruct (proj1 IH) as [s ->]; [exists r; cbn; now rewrite E|]. now exists s.
      * intros [r E]. injection E as -> E. destruct (proj2 IH) as [s Es]; [eauto|]. exists s. cbn in Es |- *. injection Es as ->.
        now rewrite <- app_assoc.
Qed.
Lemma inDir_parts a b : Forall good a -> Forall good b -> inDir (pathOf a) (pathOf b) <-> exists r, b = a ++ r.
Proof. apply craw_prefix. Qed.
