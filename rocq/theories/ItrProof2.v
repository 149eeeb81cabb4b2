(** Order of the entries, the flat list, and lists limited by a prefix. *)
From Coq Require Import Permutation Sorted.
From Verif Require Import Base Str RegModel LinkCheckModel LinkCheckSpec LinkCheckProof2 ItrModel ItrSpec ItrProof.
Open Scope Z_scope.

(** * Entries and the tree *)
Lemma inTree_intro deep n : forall sub l x, In n l -> In x (entriesOf deep sub n) -> inTree deep sub l x.
Proof.
  induction n as [i | i | i ch IH] using node_ind'; intros sub l x Hn; cbn [entriesOf].
  - intros [<- | []]. apply InHere; exact Hn.
  - intros [<- | []]. exact (InHere deep sub l _ Hn).
  - intros [<- | Hx]; [exact (InHere deep sub l _ Hn)|]. destruct deep eqn:ED; [| destruct Hx].
    apply in_flat_map in Hx. destruct Hx as (m & Hm & Hx). eapply InSub; [reflexivity | exact Hn|].
    rewrite Forall_forall in IH. eapply IH; [exact Hm | exact Hm | exact Hx].
Qed.
Lemma inTree_elim deep sub l x : inTree deep sub l x -> In x (flat_map (entriesOf deep sub) l).
Proof.
  induction 1 as [sub l n Hn | sub l i ch x -> Hn _ IH]; apply in_flat_map.
  - exists n. split; [exact Hn|]. destruct n as [i | i [ch |]]; left; reflexivity.
  - exists (NPath i (Some ch)). split; [exact Hn|]. right. exact IH.
Qed.
Lemma entries_in deep l x : In x (entries deep l) <-> inTree deep None l x.
Proof.
  unfold entries. split; [| apply inTree_elim]. intros H. apply in_flat_map in H. destruct H as (n & Hn & Hx). eapply inTree_intro; eauto.
Qed.

(** * No order *)
Lemma outs_none recurse rx n : forall sub, outs recurse OrderNone rx sub (sortTree OrderNone n) = filter (keep rx) (entriesOf recurse sub n).
Proof.
  induction n as [i | i | i l IH] using node_ind'; intros sub; cbn [sortTree outs entriesOf sortN]; unfold self; fold (keep rx); rewrite ?app_nil_r; try reflexivity.
  match goal with |- _ = filter _ (?x :: ?y) => change (x :: y) with ([x] ++ y) end. rewrite filter_app. f_equal.
  destruct recurse; [| reflexivity]. rewrite flat_map_filter, flat_map_map. rewrite Forall_forall in IH.
  clear -IH. induction l as [| a r IHl]; [reflexivity|]. cbn [flat_map]. rewrite IHl, (IH a); auto; [now left | intros; apply IH; now right].
Qed.
Lemma run_none ls recurse rx l : holdsAll ls None l -> gives ls recurse OrderNone rx (filter (keep rx) (entries recurse l)).
Proof.
  intros H. pose proof (run_gives ls recurse OrderNone rx l H) as G. cbn [sortN] in G. rewrite flat_map_map in G.
  unfold entries. rewrite flat_map_filter. erewrite flat_map_ext; [exact G|]. intros a. symmetry. apply outs_none.
Qed.

(** * Sorted *)
Lemma sorted_unique {A} (R : A -> A -> Prop) : (forall a, ~ R a a) -> (forall a b, R a b -> ~ R b a) -> forall l1 l2, StronglySorted R l1 -> StronglySorted R l2 ->
  Permutation l1 l2 -> l1 = l2.
Proof.
  intros HI HA. induction l1 as [| a l1 IH]; intros l2 S1 S2 P.
  - now apply Permutation_nil in P.
  - destruct l2 as [| b l2]; [apply Permutation_sym, Permutation_nil in P; discriminate|].
    inversion S1 as [| ? ? S1' F1]; subst. inversion S2 as [| ? ? S2' F2]; subst. rewrite Forall_forall in F1, F2.
    assert (E : a = b).
    { assert (Ha : In a (b :: l2)) by (eapply Permutation_in; [exact P | now left]).
      assert (Hb : In b (a :: l1)) by (eapply Permutation_in; [apply Permutation_sym; exact P | now left]).
      destruct Ha as [-> | Ha]; [reflexivity|]. destruct Hb as [-> | Hb]; [reflexivity|]. destruct (HA a b (F1 b Hb) (F2 a Ha)). }
    subst b. f_equal. apply IH; auto. eapply Permutation_cons_inv. exact P.
Qed.

Definition nlt (a b : node) : Prop := slt (nameOf a) (nameOf b).
Lemma strict_of leb (R : str -> str -> Prop) (HR : forall a b, leb a b = true -> a = b \/ R a b) (l : list node) :
  NoDup (map nameOf l) -> StronglySorted (keyLe nameOf leb) l -> StronglySorted (fun a b => R (nameOf a) (nameOf b)) l.
Proof.
  induction l as [| a r IH]; intros HN HS; [constructor|]. inversion HN as [| ? ? Hi Hn]; subst. inversion HS as [| ? ? S1 F1]; subst.
  constructor; [auto|]. rewrite Forall_forall in *. intros x Hx. specialize (F1 x Hx). unfold keyLe in F1.
  destruct (HR _ _ F1) as [E | H]; [| exact H]. destruct Hi. rewrite E. apply in_map. exact Hx.
Qed.
Lemma leb_cases a b : strLeb a b = true -> a = b \/ slt a b.
Proof. rewrite strLeb_le, sle_lt_eq. intuition. Qed.
Lemma sort_perm_nodup leb (l : list node) : NoDup (map nameOf l) -> NoDup (map nameOf (sortBy nameOf leb l)).
Proof. intros H. eapply Permutation_NoDup; [| exact H]. apply Permutation_sym, Permutation_map, sortBy_perm. Qed.
Lemma sort_asc l : NoDup (map nameOf l) -> StronglySorted nlt (sortBy nameOf strLeb l).
Proof.
  intros H. apply (strict_of strLeb slt leb_cases); [apply sort_perm_nodup, H|]. apply sortBy_sorted; [apply strLeb_total | apply strLeb_trans].
Qed.
Lemma sort_desc l : NoDup (map nameOf l) -> sortBy nameOf (fun a b => strLeb b a) l = rev (sortBy nameOf strLeb l).
Proof.
  intros H. apply (sorted_unique (fun a b => nlt b a)).
  - intros a. apply slt_irrefl.
  - intros a b. unfold nlt. intros H1 H2. exact (slt_asym _ _ H1 H2).
  - apply (strict_of (fun a b => strLeb b a) (fun a b => slt b a)).
    + intros a b E. destruct (leb_cases _ _ E); auto.
    + apply sort_perm_nodup, H.
    + apply sortBy_sorted; [intros; destruct (strLeb_total a b); auto | intros a b c; intros; eapply strLeb_trans; eauto].
  - apply StronglySorted_rev, sort_asc, H.
  - etransitivity; [apply sortBy_perm|]. etransitivity; [apply Permutation_sym, (sortBy_perm nameOf strLeb)|]. apply Permutation_rev.
Qed.

Lemma nameOf_sortTree o n : nameOf (sortTree o n) = nameOf n.
Proof. unfold nameOf. now rewrite infoOf_sortTree. Qed.
Lemma names_sortTree o l : map nameOf (map (sortTree o) l) = map nameOf l.
Proof. rewrite map_map. apply map_ext, nameOf_sortTree. Qed.

(** The tree with every list reversed *)
Fixpoint revTree (n : node) : node :=
  match n with NFile i => NFile i | NPath i None => NPath i None | NPath i (Some l) => NPath i (Some (rev (map revTree l))) end.
Lemma infoOf_revTree n : infoOf (revTree n) = infoOf n.
Proof. destruct n as [i | i [l |]]; reflexivity. Qed.
Lemma map_insert_gen (f : node -> node) leb x l : (forall n, nameOf (f n) = nameOf n) -> map f (insertBy nameOf leb x l) = insertBy nameOf leb (f x) (map f l).
Proof.
  intros Hf. induction l as [| y r IH]; [reflexivity|]. cbn [insertBy map]. rewrite !Hf.
  destruct (leb (nameOf x) (nameOf y)); [reflexivity|]. cbn [map]. now rewrite IH.
Qed.
Lemma map_sort_gen (f : node -> node) leb l : (forall n, nameOf (f n) = nameOf n) -> map f (sortBy nameOf leb l) = sortBy nameOf leb (map f l).
Proof. intros Hf. induction l as [| x r IH]; [reflexivity|]. cbn [sortBy map]. now rewrite map_insert_gen, IH by exact Hf. Qed.

Lemma sortTree_desc n : proper n -> sortTree OrderDesc n = revTree (sortTree OrderAsc n).
Proof.
  induction n as [i | i | i l IH] using node_ind'; intros HP; [reflexivity | reflexivity|].
  cbn [proper] in HP. destruct HP as [_ [HN HA]]. rewrite proper_all in HA. cbn [sortTree revTree sortN]. do 2 f_equal.
  rewrite sort_desc by (now rewrite names_sortTree). f_equal.
  rewrite map_sort_gen by (intros; unfold nameOf; now rewrite infoOf_revTree). f_equal. rewrite map_map.
  clear HN. induction l as [| a r IHl]; [reflexivity|]. inversion IH; subst. inversion HA; subst. cbn [map]. rewrite IHl by assumption. f_equal. auto.
Qed.
Lemma flat_map_rev {A B} (f : A -> list B) l : flat_map f (rev l) = rev (flat_map (fun x => rev (f x)) l).
Proof.
  induction l as [| a r IH]; [reflexivity|]. cbn [rev flat_map]. rewrite flat_map_app, IH, rev_app_distr, rev_involutive. cbn [flat_map]. now rewrite app_nil_r.
Qed.
Lemma self_rev rx sub n : rev (self rx sub n) = self rx sub n.
Proof. unfold self. cbn [filter]. destruct (matched rx _); reflexivity. Qed.
Lemma outs_rev recurse rx n : forall sub, outs recurse OrderDesc rx sub (revTree n) = rev (outs recurse OrderAsc rx sub n).
Proof.
  induction n as [i | i | i l IH] using node_ind'; intros sub; cbn [revTree outs]; rewrite rev_app_distr, self_rev; [reflexivity | reflexivity|].
  f_equal. destruct recurse; [| reflexivity]. rewrite flat_map_rev. f_equal. rewrite flat_map_map.
  rewrite Forall_forall in IH. clear -IH. induction l as [| a r IHl]; [reflexivity|]. cbn [flat_map].
  rewrite (IH a) by now left. rewrite rev_involutive. f_equal. apply IHl. intros; apply IH; now right.
Qed.
Lemma run_desc recurse rx l : properAll l ->
  flat_map (outs recurse OrderDesc rx None) (sortN OrderDesc (map (sortTree OrderDesc) l)) =
  rev (flat_map (outs recurse OrderAsc rx None) (sortN OrderAsc (map (sortTree OrderAsc) l))).
Proof.
  intros [HN HP]. cbn [sortN].
  assert (E : map (sortTree OrderDesc) l = map revTree (map (sortTree OrderAsc) l)).
  { rewrite map_map. apply map_ext_in. intros a Ha. apply sortTree_desc, HP, Ha. }
  assert (HRn : forall n, nameOf (revTree n) = nameOf n) by (intros; unfold nameOf; now rewrite infoOf_revTree).
  rewrite E, sort_desc. 2:{ rewrite map_map. erewrite map_ext; [| intros; apply HRn]. now rewrite names_sortTree. }
  rewrite <- map_sort_gen by exact HRn. rewrite flat_map_rev, flat_map_map. f_equal. apply flat_map_ext. intros a. rewrite outs_rev. apply rev_involutive.
Qed.

(** * Parts of names *)
Definition partsOf (sub : option str) : list str := match sub with None => [] | Some p => splitSlash p end.
Lemma split_app p n : (forall c, In c n -> c <> 47) -> splitSlash (p ++ 47 :: n) = splitSlash p ++ [n].
Proof.
  intros Hn. induction p as [| c p IH]; cbn [app].
  - change (47 :: n) with ([] ++ 47 :: n). rewrite split_noslash by (intros []). rewrite split_one; [reflexivity|]. intros H; exact (Hn 47 H eq_refl).
  - cbn [splitSlash]. destruct (c =? 47); rewrite IH; [reflexivity|]. destruct (splitSlash p) eqn:E; [| reflexivity].
    destruct p; cbn [splitSlash] in E; [discriminate|]. destruct (z =? 47); [discriminate|]. destruct (splitSlash p); discriminate.
Qed.
Lemma split_full sub n : (forall c, In c n -> c <> 47) -> splitSlash (fullName sub n) = partsOf sub ++ [n].
Proof.
  intros Hn. destruct sub as [p |]; cbn [fullName partsOf app]; [now apply split_app|]. apply split_one. intros H; exact (Hn 47 H eq_refl).
Qed.

Lemma before_prefix p a b : before a b -> before (p ++ a) (p ++ b).
Proof. intros H. induction p; [exact H | now constructor]. Qed.
Lemma before_irrefl a : ~ before a a.
Proof.
  induction a as [| x a IH]; intros H; inversion H as [| ? ? ? ? E | ? ? ? E]; subst; [| exact (IH E)]. rewrite strCmp_refl in E. discriminate.
Qed.
Lemma before_asym a b : before a b -> ~ before b a.
Proof.
  induction 1 as [b r | a b r s E | a r s H IH]; intros H'; inversion H' as [| ? ? ? ? E' | ? ? ? E']; subst.
  - rewrite strCmp_antisym, E in E'. discriminate.
  - rewrite strCmp_refl in E. discriminate.
  - rewrite strCmp_refl in E'. discriminate.
  - exact (IH E').
Qed.
Lemma before_trans a b c : before a b -> before b c -> before a c.
Proof.
  intros H. revert c. induction H as [b r | a b r s E | a r s H IH]; intros c H'; inversion H' as [| ? ? ? ? E' | ? ? ? E']; subst; try (constructor; auto; fail).
  constructor. eapply slt_trans; [exact E | exact E'].
Qed.

Definition ibefore (x y : info) : Prop := before (splitSlash (iName x)) (splitSlash (iName y)).
(** Every output of a node has the node's parts at its beginning *)
Lemma outs_parts recurse rx n : forall sub x, proper n -> In x (outs recurse OrderAsc rx sub n) -> exists r, splitSlash (iName x) = partsOf sub ++ nameOf n :: r.
Proof.
  assert (HSelf : forall sub n x, proper n -> In x (self rx sub n) -> splitSlash (iName x) = partsOf sub ++ [nameOf n]).
  { intros sub m x HP Hx. unfold self in Hx. apply filter_In in Hx. destruct Hx as [[<- | []] _]. cbn [iName]. apply split_full.
    destruct m; apply HP. }
  induction n as [i | i | i l IH] using node_ind'; intros sub x HP; cbn [outs]; rewrite ?app_nil_r.
  1, 2: intros H; exists []; now apply HSelf.
  intros H. apply in_app_or in H. destruct H as [H | H]; [exists []; now apply HSelf|].
  destruct recurse; [| destruct H]. apply in_flat_map in H. destruct H as (m & Hm & Hx).
  assert (HPi : forall c, In c (iName i) -> c <> 47) by apply HP.
  cbn [proper] in HP. destruct HP as [_ [_ HA]]. rewrite proper_all in HA. rewrite Forall_forall in IH, HA.
  destruct (IH m Hm _ _ (HA m Hm) Hx) as [r E]. exists (nameOf m :: r). cbn [partsOf] in E. rewrite split_full in E by exact HPi.
  rewrite E, <- app_assoc. reflexivity.
Qed.
Lemma proper_sort n : proper n -> proper (sortTree OrderAsc n).
Proof.
  induction n as [i | i | i l IH] using node_ind'; auto. cbn [proper sortTree]. intros (H1 & H2 & H3). rewrite proper_all in *. split; [exact H1|]. split.
  - cbn [sortN]. apply sort_perm_nodup. now rewrite names_sortTree.
  - rewrite Forall_forall in *. intros x Hx. apply (Permutation_in _ (sortN_perm _ _)), in_map_iff in Hx. destruct Hx as (y & <- & Hy). auto.
Qed.
Lemma flat_sorted {A B} (R : B -> B -> Prop) (f : A -> list B) l :
  (forall x, In x l -> StronglySorted R (f x)) -> StronglySorted (fun a b => forall x y, In x (f a) -> In y (f b) -> R x y) l -> StronglySorted R (flat_map f l).
Proof.
  induction l as [| a r IH]; intros H HS; [constructor|]. inversion HS as [| ? ? S1 F1]; subst. cbn [flat_map]. apply StronglySorted_app.
  - apply H; now left.
  - apply IH; auto. intros; apply H; now right.
  - rewrite Forall_forall in F1. intros x y Hx Hy. apply in_flat_map in Hy. destruct Hy as (b & Hb & Hy). eapply F1; eauto.
Qed.
Lemma nodes_sorted recurse rx sub l : NoDup (map nameOf l) -> Forall proper l -> (forall n, In n l -> StronglySorted ibefore (outs recurse OrderAsc rx sub n)) ->
  StronglySorted nlt l -> StronglySorted ibefore (flat_map (outs recurse OrderAsc rx sub) l).
Proof.
  intros HN HP HO HS. apply flat_sorted; [exact HO|]. clear HN HO. induction HS as [| a r Hr IH Ha]; [constructor|]. inversion HP; subst. constructor; [auto|].
  rewrite Forall_forall in *. intros b Hb x y Hx Hy. destruct (outs_parts _ _ _ _ _ H1 Hx) as [ra Ea]. destruct (outs_parts _ _ _ _ _ (H2 b Hb) Hy) as [rb Eb].
  unfold ibefore. rewrite Ea, Eb. apply before_prefix. constructor. apply Ha, Hb.
Qed.
Lemma outs_sorted recurse rx n : forall sub, proper n -> StronglySorted ibefore (outs recurse OrderAsc rx sub (sortTree OrderAsc n)).
Proof.
  assert (HSelf : forall sub n, StronglySorted ibefore (self rx sub n)).
  { intros sub m. unfold self. cbn [filter]. destruct (matched rx _); repeat constructor. }
  induction n as [i | i | i l IH] using node_ind'; intros sub HP; cbn [sortTree outs]; rewrite ?app_nil_r; [apply HSelf | apply HSelf|].
  apply StronglySorted_app; [apply HSelf | |].
  - destruct recurse; [| constructor]. cbn [proper] in HP. destruct HP as (_ & HN & HA). rewrite proper_all in HA. cbn [sortN].
    apply nodes_sorted.
    + apply sort_perm_nodup. now rewrite names_sortTree.
    + rewrite Forall_forall in *. intros x Hx. rewrite sortBy_in, in_map_iff in Hx. destruct Hx as (y & <- & Hy). apply proper_sort; auto.
    + rewrite Forall_forall in *. intros x Hx. rewrite sortBy_in, in_map_iff in Hx. destruct Hx as (y & <- & Hy). auto.
    + apply sort_asc. now rewrite names_sortTree.
  - intros x y Hx Hy. destruct recurse; [| destruct Hy]. apply in_flat_map in Hy. destruct Hy as (m & Hm & Hy). cbn [sortN] in Hm. rewrite sortBy_in, in_map_iff in Hm. destruct Hm as (k & <- & Hk).
    assert (HPi : forall c, In c (iName i) -> c <> 47) by apply HP. cbn [proper] in HP. destruct HP as (_ & HN & HA). rewrite proper_all, Forall_forall in HA.
    destruct (outs_parts _ _ _ _ _ (proper_sort _ (HA k Hk)) Hy) as [r E]. cbn [partsOf] in E. rewrite split_full in E by exact HPi.
    unfold self in Hx. apply filter_In in Hx. destruct Hx as [[<- | []] _]. unfold ibefore. rewrite E. cbn [iName nameOf infoOf]. unfold nameOf at 1. cbn [infoOf]. rewrite split_full by exact HPi.
    rewrite <- app_assoc. apply before_prefix. cbn [app]. apply BeforeSame, BeforeIn.
Qed.
Lemma run_sorted recurse rx l : properAll l -> StronglySorted ibefore (flat_map (outs recurse OrderAsc rx None) (sortN OrderAsc (map (sortTree OrderAsc) l))).
Proof.
  intros [HN HP]. cbn [sortN]. apply nodes_sorted.
  - apply sort_perm_nodup. now rewrite names_sortTree.
  - apply Forall_forall. intros x Hx. rewrite sortBy_in, in_map_iff in Hx. destruct Hx as (y & <- & Hy). apply proper_sort; auto.
  - intros x Hx. rewrite sortBy_in, in_map_iff in Hx. destruct Hx as (y & <- & Hy). apply outs_sorted; auto.
  - apply sort_asc. now rewrite names_sortTree.
Qed.
Lemma sorted_names_nodup l : StronglySorted ibefore l -> NoDup (map iName l).
Proof.
  induction 1 as [| a r Hr IH Ha]; [constructor|]. cbn [map]. constructor; [| exact IH]. intros H. apply in_map_iff in H. destruct H as (b & E & Hb).
  rewrite Forall_forall in Ha. specialize (Ha b Hb). unfold ibefore in Ha. rewrite E in Ha. exact (before_irrefl _ Ha).
Qed.
Lemma run_nodup recurse order rx l : properAll l -> NoDup (map iName (flat_map (outs recurse order rx None) (sortN order (map (sortTree order) l)))).
Proof.
  intros HP. eapply Permutation_NoDup; [| apply sorted_names_nodup, (run_sorted recurse rx l HP)]. apply Permutation_map.
  etransitivity; [apply run_perm | apply Permutation_sym, run_perm].
Qed.

(** * Without recursion *)
Lemma step_flat ls ls2 order rx f rest : step ls false order rx f rest = step ls2 false order rx f rest.
Proof. unfold step. destruct (fList f) as [| i t]; [reflexivity|]. rewrite andb_false_r. reflexivity. Qed.
Lemma search_flat ls ls2 order rx fuel : forall st, search ls false order rx fuel st = search ls2 false order rx fuel st.
Proof.
  induction fuel as [| fuel IH]; intros st; [reflexivity|]. cbn [search]. destruct st as [| f rest]; [reflexivity|].
  rewrite (step_flat ls ls2). destruct (step ls2 false order rx f rest) as [st' [i |]]; [reflexivity | apply IH].
Qed.
Lemma drain_flat ls ls2 order rx n fuel : forall t, drain ls false order rx n fuel t = drain ls2 false order rx n fuel t.
Proof.
  induction n as [| n IH]; intros t; [reflexivity|]. cbn [drain]. unfold storageItrMore. destruct (itNext t).
  - destruct (storageItrNext t) as [[x t'] | |]; [now rewrite IH | reflexivity | reflexivity].
  - rewrite (search_flat ls ls2). destruct (search ls2 false order rx fuel (itStack t)) as [[st [i |]] |]; [| reflexivity | reflexivity].
    cbn [storageItrNext itNext itStack]. now rewrite IH.
Qed.
Definition flatNode (i : info) : node := if iPath i then NPath i None else NFile i.
Lemma flat_info i : infoOf (flatNode i) = i.
Proof. unfold flatNode. destruct (iPath i); reflexivity. Qed.
Lemma flat_infos li : map infoOf (map flatNode li) = li.
Proof. rewrite map_map. erewrite map_ext; [apply map_id | apply flat_info]. Qed.
Lemma run_flat ls order rx li : ls None = Some li -> gives ls false order rx (filter (keep rx) (storageLstSort order li)).
Proof.
  intros HL. set (ls2 := fun sub : option str => match sub with None => Some li | Some _ => None end).
  assert (HH : holdsAll ls2 None (map flatNode li)).
  { split; [cbn [ls2]; now rewrite flat_infos|]. intros n Hn. apply in_map_iff in Hn. destruct Hn as (i & <- & _). unfold flatNode.
    destruct (iPath i) eqn:E; cbn [holds]; auto. }
  destruct (run_gives ls2 false order rx _ HH) as (t & H1 & b & H2). exists t. split.
  - revert H1. unfold storageItrNew, storageItrPathAdd. rewrite HL. auto.
  - exists b. intros n fuel Hn Hf. rewrite (drain_flat ls ls2), H2 by assumption. do 2 f_equal.
    assert (E : map (sortTree order) (map flatNode li) = map flatNode li).
    { rewrite map_map. apply map_ext. intros i. unfold flatNode. destruct (iPath i); reflexivity. }
    rewrite E. assert (ES : sortN order (map flatNode li) = map flatNode (storageLstSort order li)).
    { assert (HI : forall leb x l, insertBy nameOf leb (flatNode x) (map flatNode l) = map flatNode (insertBy iName leb x l)).
      { intros leb x l. induction l as [| y r IH]; [reflexivity|]. cbn [insertBy map]. unfold nameOf at 1 2. rewrite !flat_info.
        destruct (leb (iName x) (iName y)); [reflexivity|]. cbn [map]. now rewrite IH. }
      assert (HB : forall leb l, sortBy nameOf leb (map flatNode l) = map flatNode (sortBy iName leb l)).
      { intros leb l. induction l as [| y r IH]; [reflexivity|]. cbn [sortBy map]. now rewrite IH, HI. }
      unfold sortN, storageLstSort. destruct order; auto. }
    rewrite ES, flat_map_map. generalize (storageLstSort order li). intros l. induction l as [| a r IH]; [reflexivity|]. cbn [flat_map].
    rewrite IH. change (filter (keep rx) (a :: r)) with (filter (keep rx) ([a] ++ r)). rewrite filter_app. f_equal. unfold flatNode.
    destruct a as [an [] ad]; cbn [iPath outs]; unfold self; fold (keep rx); destruct order; rewrite ?app_nil_r; reflexivity.
Qed.

(** * The prefix *)
Lemma filter_insert (leb : str -> str -> bool) (HT : forall a b c, leb a b = true -> leb b c = true -> leb a c = true) (p : info -> bool) x l :
  StronglySorted (keyLe iName leb) l ->
  filter p (insertBy iName leb x l) = if p x then insertBy iName leb x (filter p l) else filter p l.
Proof.
  induction 1 as [| y r Hr IH Hy]; [reflexivity|]. cbn [insertBy]. destruct (leb (iName x) (iName y)) eqn:E.
  - cbn [filter]. destruct (p x) eqn:Ep; [| reflexivity].
    destruct (p y) eqn:Eq; [cbn [insertBy]; now rewrite E|]. destruct (filter p r) as [| z s] eqn:EF; [reflexivity|]. cbn [insertBy].
    assert (Hz : In z r) by (apply (filter_In p); rewrite EF; now left). rewrite Forall_forall in Hy. specialize (Hy z Hz). unfold keyLe in Hy.
    now rewrite (HT _ _ _ E Hy).
  - cbn [filter]. rewrite IH. destruct (p x), (p y); try reflexivity. cbn [insertBy]. now rewrite E.
Qed.
Lemma filter_sort (leb : str -> str -> bool) (HO : forall a b, leb a b = true \/ leb b a = true) (HT : forall a b c, leb a b = true -> leb b c = true -> leb a c = true) (p : info -> bool) l :
  filter p (sortBy iName leb l) = sortBy iName leb (filter p l).
Proof.
  induction l as [| x r IH]; [reflexivity|]. cbn [sortBy filter]. rewrite (filter_insert leb HT) by (apply sortBy_sorted; assumption). rewrite IH.
  destruct (p x); reflexivity.
Qed.
Lemma filter_storageLstSort order p l : filter p (storageLstSort order l) = storageLstSort order (filter p l).
Proof.
  destruct order; cbn [storageLstSort]; [reflexivity | |]; apply filter_sort.
  - apply strLeb_total.
  - apply strLeb_trans.
  - intros a b. destruct (strLeb_total a b); auto.
  - intros a b c H1 H2. eapply strLeb_trans; eauto.
Qed.
Lemma begins_app s p : strBeginsWith (p ++ s) p = true.
Proof. unfold strBeginsWith. rewrite firstn_app, firstn_all, Nat.sub_diag. cbn [firstn]. rewrite app_nil_r. apply strEqb_refl. Qed.
Lemma run_prefix ls order rx e li : ls None = Some li ->
  (forall p i, regExpPrefix e = Some p -> In i li -> matched rx (iName i) = true -> exists t, iName i = p ++ t) ->
  gives (prefixDriver (Some e) ls) false order rx (filter (keep rx) (storageLstSort order li)).
Proof.
  intros HL HP. destruct (regExpPrefix e) as [p |] eqn:EP.
  2:{ apply run_flat. unfold prefixDriver. now rewrite EP. }
  assert (E : filter (keep rx) (storageLstSort order li) = filter (keep rx) (storageLstSort order (filter (fun i => strBeginsWith (iName i) p) li))).
  { rewrite !filter_storageLstSort. f_equal. induction li as [| a r IH] in HP |- *; [reflexivity|]. cbn [filter].
    assert (IH' := IH ltac:(intros; eapply HP; eauto; now right)). destruct (keep rx a) eqn:EK.
    - destruct (HP p a eq_refl (or_introl eq_refl) EK) as [t Ht]. rewrite Ht, begins_app. cbn [filter]. rewrite EK. now rewrite IH'.
    - destruct (strBeginsWith (iName a) p); cbn [filter]; rewrite ?EK; exact IH'. }
  rewrite E. apply run_flat. unfold prefixDriver. rewrite EP, HL. reflexivity.
Qed.
